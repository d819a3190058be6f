(* Reading the usual format, and reading its lines. *)
From Coq Require Import String.
From Verif Require Import Base Text TextOps NwModel LogModel LogSpec LogProofs LogEncode LogParse LogShow AlModel AlSpec.
Open Scope N_scope.

(* a text can be read back from its bytes *)
Lemma digits64 c : c = 64 * (c / 64) + c mod 64 /\ c / 64 = 64 * (c / 4096) + c / 64 mod 64 /\ c / 4096 = 64 * (c / 262144) + c / 4096 mod 64.
Proof.
  assert (A : c / 4096 = c / 64 / 64) by (rewrite N.div_div by lia; reflexivity).
  assert (B : c / 262144 = c / 4096 / 64) by (rewrite N.div_div by lia; reflexivity).
  split; [apply N.div_mod'|]. rewrite B. split; [rewrite A|]; apply N.div_mod'.
Qed.
Lemma char_inj c e x y : utf8_char c ++ x = utf8_char e ++ y -> c = e /\ x = y.
Proof.
  pose proof (digits64 c) as (C1 & C2 & C3). pose proof (digits64 e) as (E1 & E2 & E3).
  assert (Z : 64 <> 0) by discriminate.
  pose proof (N.mod_lt c 64 Z) as L1. pose proof (N.mod_lt (c / 64) 64 Z) as L2. pose proof (N.mod_lt (c / 4096) 64 Z) as L3.
  pose proof (N.mod_lt e 64 Z) as M1. pose proof (N.mod_lt (e / 64) 64 Z) as M2. pose proof (N.mod_lt (e / 4096) 64 Z) as M3. clear Z.
  unfold utf8_char. revert C1 C2 C3 E1 E2 E3 L1 L2 L3 M1 M2 M3.
  generalize (c mod 64), (c / 64 mod 64), (c / 4096 mod 64), (c / 64), (c / 4096), (c / 262144).
  generalize (e mod 64), (e / 64 mod 64), (e / 4096 mod 64), (e / 64), (e / 4096), (e / 262144).
  intros e1 e2 e3 f1 f2 f3 c1 c2 c3 d1 d2 d3 C1 C2 C3 E1 E2 E3 L1 L2 L3 M1 M2 M3.
  destruct (N.ltb_spec c 0x80); [|destruct (N.ltb_spec c 0x800); [|destruct (N.ltb_spec c 0x10000)]];
    (destruct (N.ltb_spec e 0x80); [|destruct (N.ltb_spec e 0x800); [|destruct (N.ltb_spec e 0x10000)]]);
    cbn [app]; intros X.
  all: pose proof (f_equal (fun l => nth 0 l 0) X) as X0; pose proof (f_equal (fun l => nth 1 l 0) X) as X1; pose proof (f_equal (fun l => nth 2 l 0) X) as X2; pose proof (f_equal (fun l => nth 3 l 0) X) as X3.
  all: cbn [nth] in X0, X1, X2, X3.
  all: try (exfalso; clear X X1 X2 X3; lia).
  - injection X as _ X. split; [exact X0|exact X].
  - injection X as _ _ X. split; [clear X X2 X3; lia|exact X].
  - injection X as _ _ _ X. split; [clear X X3; lia|exact X].
  - injection X as _ _ _ _ X. split; [clear X; lia|exact X].
Qed.
Lemma utf8_inj a : forall b, forallb scalar a = true -> forallb scalar b = true -> utf8 a = utf8 b -> a = b.
Proof.
  induction a as [|c a IH]; intros [|e b] Ha Hb H; [reflexivity| | |].
  - exfalso. cbn [utf8 flat_map] in H. symmetry in H. apply app_eq_nil in H as [H _]. exact (utf8_char_nonempty e H).
  - exfalso. cbn [utf8 flat_map] in H. apply app_eq_nil in H as [H _]. exact (utf8_char_nonempty c H).
  - cbn [forallb] in Ha, Hb. apply andb_true_iff in Ha as [A1 A2]. apply andb_true_iff in Hb as [B1 B2]. cbn [utf8 flat_map] in H.
    destruct (char_inj _ _ _ _ H) as [-> X]. f_equal. exact (IH b A2 B2 X).
Qed.
(* what comes before the first blank *)
Lemma before_blank a : forall b x y, no_char 32 a = true -> no_char 32 b = true -> a ++ 32 :: x = b ++ 32 :: y -> a = b /\ x = y.
Proof.
  induction a as [|c a IH]; intros [|e b] x y Ha Hb H; cbn [app no_char forallb] in *.
  - injection H as H. auto.
  - injection H as <- _. discriminate Hb.
  - injection H as -> _. discriminate Ha.
  - apply andb_true_iff in Ha as [_ Ha]. apply andb_true_iff in Hb as [_ Hb]. injection H as -> H. destruct (IH b x y Ha Hb H) as [-> ->]. auto.
Qed.

(* the tokens of the usual format *)
Definition none : params := Params 32 false None None.
Definition f_ (n : string) : list tok := [TA (txt n) [] none].
Definition t_ (s : string) : list tok := map TC (txt s).
Definition rest_toks : list tok :=
  t_ " " ++ f_ "client_ip" ++ t_ " " ++ f_ "l" ++ t_ " " ++ f_ "url" ++ t_ " path:" ++ f_ "path" ++ t_ " query:" ++ f_ "query" ++ t_ " host:" ++ f_ "host" ++
  t_ " status: " ++ f_ "status" ++ t_ " " ++ f_ "up_status" ++ t_ " referer: " ++ f_ "referer" ++ t_ " user_agent: " ++ f_ "user_agent" ++ t_ " cookie: " ++ f_ "cookie".

Section Read.
  Context (alpha alnum : N -> bool) (SY : syntax_ok alpha alnum) (LA : latin alpha alnum).

  Lemma prints_text i t l s : forallb (fun c => negb (special c)) t = true -> prints alpha alnum i l s -> prints alpha alnum i (map TC t ++ l) (t ++ s).
  Proof.
    intros H P. induction t as [|c t IH]; [exact P|]. cbn [forallb] in H. apply andb_true_iff in H as [A B]. cbn [map app]. apply pr_plain; [now apply negb_true_iff in A|auto].
  Qed.
  Definition small (c : N) : bool := ((97 <=? c) && (c <=? 122)) || (c =? 95).
  Lemma ident_small n : forallb small n = true -> is_ident alpha alnum n.
  Proof.
    assert (A : forall c, small c = true -> (alpha c || (c =? 95)) = true /\ (alnum c || (c =? 95)) = true).
    { intros c H. unfold small in H. apply orb_true_iff in H as [H|H].
      - apply andb_true_iff in H as [H1 H2]. destruct (LA c) as [-> ->]; [lia|auto].
      - rewrite H, !orb_true_r. auto. }
    destruct n as [|c n]; [exact (fun _ => I)|]. cbn [forallb]. intros H. apply andb_true_iff in H as [H1 H2]. split; [apply A, H1|].
    apply forallb_forall. intros d D. rewrite forallb_forall in H2. apply A, H2, D.
  Qed.
  Lemma prints_field i n l s : forallb small n = true -> prints alpha alnum i l s -> prints alpha alnum i ([TA n [] none] ++ l) ((c_lb :: n ++ [c_rb]) ++ s).
  Proof.
    intros H P. pose proof (pr_format alpha alnum i n [] none [] [] l s (ident_small n H) (ap_nil _ _) sp_none P) as Q. cbn [app] in Q |- *. rewrite <- app_assoc. exact Q.
  Qed.
  Lemma prints_date i f l s : forallb (fun c => negb (special c)) f = true -> prints alpha alnum i l s ->
    prints alpha alnum i ([TA (txt "d") [map TC f] none] ++ l) ((c_lb :: txt "d" ++ (c_lp :: f ++ [c_rp]) ++ [c_rb]) ++ s).
  Proof.
    intros H P. assert (A : args_print alpha alnum [map TC f] (c_lp :: f ++ [c_rp])).
    { apply (ap_cons alpha alnum (map TC f) [] f []); [|constructor]. pose proof (prints_text true f [] [] H (pr_nil _ _ _)) as Q. rewrite !app_nil_r in Q. exact Q. }
    pose proof (pr_format alpha alnum i (txt "d") [map TC f] none _ [] l s (ident_small (txt "d") eq_refl) A sp_none P) as Q.
    replace ((c_lb :: txt "d" ++ (c_lp :: f ++ [c_rp]) ++ [c_rb]) ++ s) with (c_lb :: txt "d" ++ (c_lp :: f ++ [c_rp]) ++ [] ++ c_rb :: s); [exact Q|].
    repeat (cbn [app]; rewrite <- ?app_assoc). reflexivity.
  Qed.
  Lemma main_prints : prints alpha alnum false (TA (txt "d") [t_ "%Y-%m-%d %H:%M:%S"] none :: rest_toks) main_format.
  Proof.
    change main_format with
      ((c_lb :: txt "d" ++ (c_lp :: txt "%Y-%m-%d %H:%M:%S" ++ [c_rp]) ++ [c_rb]) ++ txt " " ++ (c_lb :: txt "client_ip" ++ [c_rb]) ++ txt " " ++ (c_lb :: txt "l" ++ [c_rb]) ++
       txt " " ++ (c_lb :: txt "url" ++ [c_rb]) ++ txt " path:" ++ (c_lb :: txt "path" ++ [c_rb]) ++ txt " query:" ++ (c_lb :: txt "query" ++ [c_rb]) ++
       txt " host:" ++ (c_lb :: txt "host" ++ [c_rb]) ++ txt " status: " ++ (c_lb :: txt "status" ++ [c_rb]) ++ txt " " ++ (c_lb :: txt "up_status" ++ [c_rb]) ++
       txt " referer: " ++ (c_lb :: txt "referer" ++ [c_rb]) ++ txt " user_agent: " ++ (c_lb :: txt "user_agent" ++ [c_rb]) ++ txt " cookie: " ++ (c_lb :: txt "cookie" ++ [c_rb]) ++ []).
    apply (prints_date false (txt "%Y-%m-%d %H:%M:%S") rest_toks); [reflexivity|]. unfold rest_toks. rewrite <- (app_nil_r (f_ "cookie")).
    unfold f_, t_. repeat first [apply prints_text; [reflexivity|] | apply prints_field; [reflexivity|]]. constructor.
  Qed.

  (* pieces of plain text *)
  Lemma toks_plain a f : flat_map toks a = map TC f -> flat_map date_part a = f.
  Proof.
    revert f. induction a as [|p a IH]; intros f H; cbn [flat_map] in *; [destruct f; [reflexivity|discriminate]|].
    destruct p as [u|nm ar par|e]; cbn [toks date_part] in *; [|destruct f; discriminate H|destruct f; discriminate H].
    revert f H. induction u as [|c u IHu]; intros f H; [apply IH, H|]. cbn [map app] in H. destruct f as [|d f]; [discriminate|]. cbn [map] in H.
    injection H as -> H. cbn [app]. f_equal. apply IHu, H.
  Qed.
  Context (now : text -> bool -> option (list text)) (r : record).
  Lemma shown_cons c l : shown_all now r adjusted (c :: l) = match shown now r adjusted c, shown_all now r adjusted l with Some a, Some b => Some (a ++ b) | _, _ => None end.
  Proof. reflexivity. Qed.
  Lemma dated_shown l f ts d L : toks_all l = TA (txt "d") [map TC f] none :: ts -> now f false = Some d -> (forall l', toks_all l' = ts -> shown_all now r adjusted (map chunk_of l') = Some L) ->
    shown_all now r adjusted (map chunk_of l) = Some (chars_of (List.concat d) ++ L).
  Proof.
    intros H D K. induction l as [|p l IH]; [discriminate|]. cbn [toks_all flat_map] in H. destruct p as [u|nm ar par|e]; cbn [toks] in H; [| |discriminate].
    - destruct u; [|discriminate]. cbn [map shown_all chunk_of shown]. rewrite (IH H). reflexivity.
    - cbn [app] in H. clear IH. remember (txt "d") as dn eqn:Ed in H. injection H as -> M -> H. subst dn. destruct ar as [|a [|b ar]]; [discriminate| |discriminate]. cbn [map] in M. injection M as M.
      assert (E : chunk_of (PArg (txt "d") [a] none) = CTime (flat_map date_part a) false none) by reflexivity.
      change (map chunk_of (PArg (txt "d") [a] none :: l)) with (chunk_of (PArg (txt "d") [a] none) :: map chunk_of l). rewrite shown_cons, (K l H), E. cbn [shown]. rewrite (toks_plain a f M), D. reflexivity.
  Qed.

  (* tokens that are text or fields of a given name *)
  Inductive seen_as : list tok -> list ch -> Prop :=
  | sa_nil : seen_as [] []
  | sa_text t ts L : seen_as ts L -> seen_as (map TC t ++ ts) (chars_of t ++ L)
  | sa_field n f ts L : chunk_of (PArg n [] none) = CField f none -> seen_as ts L -> seen_as ([TA n [] none] ++ ts) (chars_of (wr_text (field_out r f)) ++ L).
  (* texts may be cut into pieces differently *)
  Lemma text_shown l : forall t ts L, toks_all l = map TC t ++ ts -> (forall l', toks_all l' = ts -> shown_all now r adjusted (map chunk_of l') = Some L) ->
    shown_all now r adjusted (map chunk_of l) = Some (chars_of t ++ L).
  Proof.
    induction l as [|p l IH]; intros t ts L H K.
    - destruct t; [|discriminate]. exact (K [] H).
    - destruct t as [|c t]; [exact (K _ H)|]. cbn [toks_all flat_map] in H. destruct p as [u|nm ar par|e]; cbn [toks] in H; [|discriminate|discriminate].
      destruct u as [|b u]; [cbn [map chunk_of]; rewrite shown_cons, (IH (c :: t) ts L H K); reflexivity|]. cbn [map app] in H. injection H as -> H.
      assert (G : forall u t, map TC u ++ toks_all l = map TC t ++ ts -> exists M, shown_all now r adjusted (map chunk_of l) = Some M /\ chars_of u ++ M = chars_of t ++ L).
      { clear u t H. induction u as [|b u IHu]; intros t H.
        - exists (chars_of t ++ L). split; [exact (IH t ts L H K)|reflexivity].
        - destruct t as [|d t].
          + assert (X := K (PText (b :: u) :: l) H). cbn [map chunk_of] in X. rewrite shown_cons in X. cbn [shown] in X.
            destruct (shown_all now r adjusted (map chunk_of l)) as [M|]; [|discriminate]. injection X as X. exists M. split; [reflexivity|exact X].
          + cbn [map app] in H. injection H as -> H. destruct (IHu t H) as (M & A & B). exists M. split; [exact A|]. cbn [chars_of map app]. f_equal. exact B. }
      destruct (G u t H) as (M & A & B). cbn [map chunk_of]. rewrite shown_cons. cbn [shown]. rewrite A. cbn [chars_of map app]. f_equal. f_equal. exact B.
  Qed.
  Lemma seen_shown ts L : seen_as ts L -> forall l, toks_all l = ts -> shown_all now r adjusted (map chunk_of l) = Some L.
  Proof.
    induction 1 as [|t ts L _ IH|n f ts L E _ IH]; intros l H.
    - rewrite <- (app_nil_r ([] : list ch)). induction l as [|p l IH]; [reflexivity|]. cbn [toks_all flat_map] in H. apply app_eq_nil in H as [A B].
      destruct p as [u|nm ar par|e]; cbn [toks] in A; [destruct u; [|discriminate]|discriminate|discriminate]. cbn [map chunk_of]. rewrite shown_cons, (IH B). reflexivity.
    - exact (text_shown l t ts L H IH).
    - induction l as [|p l IHl]; [discriminate|]. cbn [toks_all flat_map] in H. destruct p as [u|nm ar par|e]; cbn [toks] in H; [| |discriminate].
      + destruct u; [|discriminate]. cbn [map chunk_of]. rewrite shown_cons, (IHl H). reflexivity.
      + cbn [app] in H. injection H as -> M -> H. destruct ar; [|discriminate]. cbn [map]. rewrite shown_cons, E, (IH l H). reflexivity.
  Qed.
  Lemma rest_seen : seen_as rest_toks (chars_of (
    txt " " ++ wr_text (field_out r FClientIp) ++ txt " " ++ wr_text (field_out r FLevel) ++ txt " " ++ wr_text (field_out r FUrl) ++ txt " path:" ++ wr_text (field_out r FPath) ++
    txt " query:" ++ wr_text (field_out r FQuery) ++ txt " host:" ++ wr_text (field_out r FHost) ++ txt " status: " ++ wr_text (field_out r FStatus) ++
    txt " " ++ wr_text (field_out r FUpstreamStatus) ++ txt " referer: " ++ wr_text (field_out r FReferer) ++ txt " user_agent: " ++ wr_text (field_out r FUserAgent) ++
    txt " cookie: " ++ wr_text (field_out r FCookie))).
  Proof.
    unfold chars_of. rewrite !map_app. fold (chars_of (txt " ")). unfold rest_toks, f_, t_.
    rewrite <- (app_nil_r [TA (txt "cookie") [] none]). rewrite <- (app_nil_r (map C (wr_text (field_out r FCookie)))).
    repeat first [apply sa_text | apply sa_field; [reflexivity|]]. constructor.
  Qed.
  (* the whole line *)
  Lemma main_line d : now (txt "%Y-%m-%d %H:%M:%S") false = Some d ->
    shown_all now r adjusted (map chunk_of (parse alpha alnum main_format)) = Some (chars_of (List.concat d ++
    txt " " ++ wr_text (field_out r FClientIp) ++ txt " " ++ wr_text (field_out r FLevel) ++ txt " " ++ wr_text (field_out r FUrl) ++ txt " path:" ++ wr_text (field_out r FPath) ++
    txt " query:" ++ wr_text (field_out r FQuery) ++ txt " host:" ++ wr_text (field_out r FHost) ++ txt " status: " ++ wr_text (field_out r FStatus) ++
    txt " " ++ wr_text (field_out r FUpstreamStatus) ++ txt " referer: " ++ wr_text (field_out r FReferer) ++ txt " user_agent: " ++ wr_text (field_out r FUserAgent) ++
    txt " cookie: " ++ wr_text (field_out r FCookie))).
  Proof.
    intros D. pose proof (parse_ok alpha alnum SY _ _ main_prints) as T.
    rewrite (dated_shown _ _ _ _ _ T D (seen_shown _ _ rest_seen)). unfold chars_of. rewrite <- map_app. reflexivity.
  Qed.
End Read.
