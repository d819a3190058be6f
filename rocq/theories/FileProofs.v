(* Lemmas about FileModel. *)
From Coq Require Import String.
From Verif Require Import Base Text TextOps FileModel FileSpec.
Open Scope N_scope.

(* ---- text ---- *)
Lemma split_acc_gen d a : forall acc b, split_acc d acc (a ++ d :: b) = split_acc d acc a ++ split_on d b.
Proof.
  induction a as [|x a IH]; intros acc b; cbn [app split_acc].
  - rewrite N.eqb_refl. reflexivity.
  - destruct (x =? d); [cbn [app]; f_equal; apply IH|apply IH].
Qed.
Lemma split_on_gen d a b : split_on d (a ++ d :: b) = split_on d a ++ split_on d b.
Proof. apply split_acc_gen. Qed.
Lemma split_on_cons d b : split_on d (d :: b) = [] :: split_on d b.
Proof. unfold split_on. cbn [split_acc]. rewrite N.eqb_refl. reflexivity. Qed.
Lemma split_nonempty d s : split_on d s <> [].
Proof. unfold split_on. generalize (@nil N). induction s as [|x s IH]; intros acc; cbn [split_acc]; [discriminate|]. destruct (x =? d); [discriminate|apply IH]. Qed.

Lemma starts_ok p s : starts_with p s = true <-> exists r, s = p ++ r.
Proof.
  unfold starts_with. destruct (strip_prefix p s) eqn:E.
  - apply strip_prefix_some in E. split; eauto.
  - apply strip_prefix_none in E. split; [discriminate|tauto].
Qed.
Lemma contains_ok h s : contains h s = true <-> occurs h s.
Proof.
  unfold occurs. induction s as [|x s IH]; cbn [contains]; rewrite orb_true_iff, starts_ok.
  - split.
    + intros [(r & E)|E]; [|discriminate]. exists [], r. exact E.
    + intros (a & b & E). left. symmetry in E. apply app_eq_nil in E. destruct E as (_ & E). exists b. symmetry. exact E.
  - rewrite IH. split.
    + intros [(r & E)|(a & b & E)]; [exists [], r; exact E|exists (x :: a), b; cbn; congruence].
    + intros ([|y a] & b & E); [left; exists b; exact E|]. right. cbn in E. injection E as <- E. eauto.
Qed.
Lemma occurs_trans a b c : occurs a b -> occurs b c -> occurs a c.
Proof. intros (x & y & ->) (u & v & ->). exists (u ++ x), (y ++ v). rewrite <- !app_assoc. reflexivity. Qed.
Lemma occurs_refl a : occurs a a. Proof. exists [], []. now rewrite app_nil_r. Qed.
Lemma occurs_l a b : occurs a (a ++ b). Proof. exists [], b. reflexivity. Qed.
Lemma occurs_r a b : occurs b (a ++ b). Proof. exists a, []. now rewrite app_nil_r. Qed.

(* each piece of a split text occurs in it *)
Lemma split_acc_occurs d s : forall acc p, In p (split_acc d acc s) -> occurs p (acc ++ s).
Proof.
  induction s as [|x s IH]; intros acc p I; cbn [split_acc] in I.
  - destruct I as [<-|[]]. rewrite app_nil_r. apply occurs_refl.
  - destruct (N.eqb_spec x d) as [->|].
    + destruct I as [<-|I]; [apply occurs_l|]. apply IH in I. eapply occurs_trans; [exact I|]. exists (acc ++ [d]), []. now rewrite <- app_assoc, app_nil_r.
    + apply IH in I. now rewrite <- app_assoc in I.
Qed.
Lemma split_occurs d s p : In p (split_on d s) -> occurs p s.
Proof. apply (split_acc_occurs d s []). Qed.

(* ---- hexadecimal ---- *)
Definition unhex_digit (c : N) : N := if c <? 58 then c - 48 else c - 87.
Definition unhex (s : text) : N := fold_left (fun a c => a * 16 + unhex_digit c) s 0.
Lemma unhex_hexf fuel : forall n, (N.to_nat (N.log2 n) < fuel)%nat -> unhex (hexf fuel n) = n /\ no_char 45 (hexf fuel n) = true.
Proof.
  induction fuel as [|f IH]; intros n L; [lia|]. cbn [hexf].
  assert (D : forall d, d < 16 -> unhex_digit (hex_digit d) = d /\ negb (hex_digit d =? 45) = true).
  { intros d Hd. unfold unhex_digit, hex_digit. destruct (N.ltb_spec d 10).
    - replace (48 + d <? 58) with true by lia. split; [lia|]. apply negb_true_iff, N.eqb_neq. lia.
    - replace (87 + d <? 58) with false by lia. split; [lia|]. apply negb_true_iff, N.eqb_neq. lia. }
  destruct (N.ltb_spec n 16).
  - destruct (D n H) as (E & F). unfold unhex. cbn [fold_left]. split; [rewrite E; lia|]. unfold no_char. cbn [forallb]. rewrite F. reflexivity.
  - destruct (IH (n / 16)) as (E & F).
    { assert (N.log2 (n / 16) < N.log2 n); [|lia]. change 16 with (2 ^ 4). rewrite <- N.shiftr_div_pow2, N.log2_shiftr. assert (4 <= N.log2 n); [|lia]. change 4 with (N.log2 16). apply N.log2_le_mono. exact H. }
    destruct (D (n mod 16)) as (E' & F'); [apply N.mod_lt; lia|].
    split.
    + unfold unhex in *. rewrite fold_left_app. cbn [fold_left]. rewrite E, E'. rewrite (N.div_mod n 16) at 3 by lia. lia.
    + rewrite no_char_app, F. unfold no_char. cbn [forallb]. rewrite F'. reflexivity.
Qed.
Lemma unhex_hex n : unhex (hex n) = n. Proof. apply unhex_hexf. lia. Qed.
Lemma hex_no_dash n : no_char 45 (hex n) = true. Proof. apply unhex_hexf. lia. Qed.
Lemma etag_inj mt len mt' len' : calc_etag mt len = calc_etag mt' len' -> secs mt = secs mt' /\ len = len'.
Proof.
  unfold calc_etag. intros E. assert (S : forall a b, split_on 45 (hex a ++ txt "-" ++ hex b) = [hex a; hex b]).
  { intros a b. change (txt "-" ++ hex b) with (45 :: hex b). rewrite split_on_app by apply hex_no_dash. now rewrite split_on_one by apply hex_no_dash. }
  assert (X := S (secs mt) len). rewrite E, S in X. injection X as X Y. apply (f_equal unhex) in X, Y. rewrite !unhex_hex in *. auto.
Qed.

(* ---- paths ---- *)
Lemma walk_app t a : forall cur b, path_walk t cur (a ++ b) = match path_walk t cur a with Some c => path_walk t c b | None => None end.
Proof. induction a as [|x a IH]; intros cur b; cbn [app path_walk]; [reflexivity|]. destruct (path_step t cur x); [apply IH|reflexivity]. Qed.
Lemma absolute_app p q : p <> [] -> absolute (p ++ q) = absolute p.
Proof. destruct p as [|x p]; [congruence|]. intros _. unfold absolute, starts_with. change (txt "/") with [47]. cbn [app strip_prefix]. destruct (47 =? x); reflexivity. Qed.
(* the path root/x is x followed from where root leads *)
Lemma resolve_under t cwd root x rn : resolve t cwd root = Some rn -> resolve t cwd (root ++ 47 :: x) = path_walk t rn (split_on 47 x).
Proof.
  unfold resolve. destruct root as [|r root]; [discriminate|]. intros H.
  change ((r :: root) ++ 47 :: x) with (r :: (root ++ 47 :: x)) at 1. cbv iota.
  rewrite absolute_app by discriminate. rewrite split_on_gen, walk_app, H. reflexivity.
Qed.

(* Path::starts_with(root) holds of every path root/x *)
Lemma is_prefix_app a b : is_prefix a (a ++ b) = true.
Proof. induction a as [|x a IH]; cbn; [reflexivity|]. rewrite leqb_refl. exact IH. Qed.
Lemma prefix_always root x : path_starts_with (root ++ 47 :: x) root = true.
Proof.
  unfold path_starts_with. destruct root as [|r root]; [reflexivity|].
  unfold comps. rewrite absolute_app by discriminate. rewrite split_on_gen.
  destruct (absolute (r :: root)).
  - rewrite filter_app. change ([] :: ?a ++ ?b) with (([] :: a) ++ b). apply is_prefix_app.
  - destruct (split_on 47 (r :: root)) as [|c cs] eqn:E; [exfalso; eapply split_nonempty; eauto|].
    cbn [app]. rewrite filter_app, app_assoc. apply is_prefix_app.
Qed.

Lemma step_below t cur (c : text) cur' : c <> txt ".." -> path_step t cur c = Some cur' -> below cur cur'.
Proof.
  intros Nc H. unfold path_step in H. destruct (is_dir_at t cur); [|discriminate H].
  destruct (leqb c [] || leqb c (txt ".")); [injection H as <-; exists []; now rewrite app_nil_r|].
  destruct (leqb c (txt "..")) eqn:E; [apply leqb_ok in E; congruence|].
  destruct (at_names t (cur ++ [c])); [|discriminate H]. injection H as <-. exists [c]. reflexivity.
Qed.
Lemma walk_below t (cs : list text) : forall cur cur', ~ In (txt "..") cs -> path_walk t cur cs = Some cur' -> below cur cur'.
Proof.
  induction cs as [|c cs IH]; intros cur cur' N H; cbn [path_walk] in H.
  - injection H as <-. exists []. now rewrite app_nil_r.
  - destruct (path_step t cur c) as [x|] eqn:E; [|discriminate]. apply step_below in E; [|intros ->; apply N; left; reflexivity].
    apply IH in H; [|intros I; apply N; right; exact I]. destruct E as (m & ->), H as (m' & ->). exists (m ++ m'). now rewrite app_assoc.
Qed.
(* every name of the result was there before or comes from the path *)
Lemma in_removelast {A} (x : A) l : In x (removelast l) -> In x l.
Proof. induction l as [|y l IH]; cbn; [tauto|]. destruct l; [intros []|]. intros [->|I]; [left; reflexivity|right; apply IH; exact I]. Qed.
Lemma walk_names t (cs : list text) : forall cur cur' n, path_walk t cur cs = Some cur' -> In n cur' -> In n cur \/ In n cs.
Proof.
  induction cs as [|c cs IH]; intros cur cur' n H I; cbn [path_walk] in H.
  - injection H as <-. auto.
  - destruct (path_step t cur c) as [x|] eqn:E; [|discriminate]. destruct (IH _ _ _ H I) as [J|J]; [|right; right; exact J].
    unfold path_step in E. destruct (is_dir_at t cur); [|discriminate].
    destruct (leqb c [] || leqb c (txt ".")); [injection E as <-; auto|].
    destruct (leqb c (txt "..")); [injection E as <-; left; apply in_removelast; exact J|].
    destruct (at_names t (cur ++ [c])); [|discriminate]. injection E as <-. apply in_app_iff in J. destruct J as [J|[->|[]]]; [auto|right; left; reflexivity].
Qed.

(* directories above an existing object *)
Lemma at_names_app t a : forall b, at_names t (a ++ b) = match at_names t a with Some u => at_names u b | None => None end.
Proof.
  revert t. induction a as [|n a IH]; intros t b; cbn [app at_names]; [reflexivity|]. destruct t as [c m|es]; [reflexivity|].
  destruct (lookup leqb n es); [apply IH|reflexivity].
Qed.
Lemma above_is_dir t a (n : text) b x : at_names t (a ++ n :: b) = Some x -> is_dir_at t a = true.
Proof.
  rewrite at_names_app. unfold is_dir_at. destruct (at_names t a) as [u|]; [|discriminate]. cbn [at_names]. destruct u; [discriminate|reflexivity].
Qed.
Lemma is_dir_exists t a : is_dir_at t a = true -> exists es, at_names t a = Some (Dir es).
Proof. unfold is_dir_at. destruct (at_names t a) as [[|es]|]; try discriminate. eauto. Qed.
Lemma is_dir_above t a b : is_dir_at t (a ++ b) = true -> is_dir_at t a = true.
Proof.
  intros H. destruct b as [|n b]; [now rewrite app_nil_r in H|]. apply is_dir_exists in H. destruct H as (es & H). eapply above_is_dir; exact H.
Qed.
Lemma is_dir_removelast t a : is_dir_at t a = true -> is_dir_at t (removelast a) = true.
Proof.
  intros H. destruct a as [|x a] using rev_ind; [exact H|]. rewrite removelast_last. eapply is_dir_above; exact H.
Qed.
(* enough .. lead to the top *)
Fixpoint ups (k : nat) : list text := match k with O => [] | S k' => txt ".." :: ups k' end.
Lemma walk_ups t k : forall cur, (length cur <= k)%nat -> is_dir_at t cur = true -> path_walk t cur (ups k) = Some [].
Proof.
  induction k as [|k IH]; intros cur L D; cbn [ups path_walk].
  - destruct cur; [reflexivity|cbn in L; lia].
  - unfold path_step. rewrite D. change (leqb (txt "..") [] || leqb (txt "..") (txt ".")) with false. rewrite leqb_refl. cbv iota.
    apply IH; [|apply is_dir_removelast; exact D].
    destruct cur as [|x cur] using rev_ind; [cbn; lia|]. rewrite removelast_last. rewrite app_length in L. cbn in L. lia.
Qed.
Lemma name_step t cur (n : text) x : name_ok n -> at_names t (cur ++ [n]) = Some x -> path_step t cur n = Some (cur ++ [n]).
Proof.
  intros (N1 & N2 & N3 & _) H. unfold path_step. rewrite (above_is_dir _ _ _ _ _ H). 
  destruct (leqb n []) eqn:E1; [apply leqb_ok in E1; congruence|]. destruct (leqb n (txt ".")) eqn:E2; [apply leqb_ok in E2; congruence|].
  destruct (leqb n (txt "..")) eqn:E3; [apply leqb_ok in E3; congruence|]. cbn [orb]. cbv iota. now rewrite H.
Qed.
Lemma walk_names_down t ns : forall cur x, Forall name_ok ns -> at_names t (cur ++ ns) = Some x -> path_walk t cur ns = Some (cur ++ ns).
Proof.
  induction ns as [|n ns IH]; intros cur x F H; cbn [path_walk]; [now rewrite app_nil_r|].
  inversion F; subst. assert (H' := H). change (n :: ns) with ([n] ++ ns) in H'. rewrite app_assoc in H'.
  assert (E : exists y, at_names t (cur ++ [n]) = Some y). { rewrite at_names_app in H'. destruct (at_names t (cur ++ [n])); [eauto|discriminate]. }
  destruct E as (y & E). rewrite (name_step _ _ _ _ H2 E). rewrite (IH _ x) by assumption. now rewrite <- app_assoc.
Qed.
(* the text of a path splits into its names *)
Lemma no_in d s : ~ In d s -> no_char d s = true.
Proof. unfold no_char. rewrite forallb_forall. intros H x I. apply negb_true_iff, N.eqb_neq. intros ->. contradiction. Qed.
Lemma split_full ns : Forall name_ok ns -> ns <> [] -> split_on 47 (full_path ns) = [] :: ns.
Proof.
  intros F. destruct ns as [|n ns]; [congruence|]. intros _. cbn [full_path]. rewrite split_on_cons. f_equal. revert n F.
  induction ns as [|m ns IH]; intros n F; inversion F; subst; cbn [full_path].
  - rewrite app_nil_r. apply split_on_one, no_in. apply H1.
  - rewrite split_on_app by (apply no_in; apply H1). now rewrite IH.
Qed.
Fixpoint up_text (k : nat) : text := match k with O => [] | S k' => txt "/.." ++ up_text k' end.
Lemma split_up k s : split_on 47 (up_text k ++ 47 :: s) = (match k with O => [[]] | S _ => [] :: ups k end) ++ split_on 47 s.
Proof.
  destruct k as [|k]; [cbn [up_text app]; now rewrite split_on_cons|].
  cbn [ups app]. change (up_text (S k) ++ 47 :: s) with (47 :: (txt ".." ++ (up_text k ++ 47 :: s))). rewrite split_on_cons. f_equal.
  induction k as [|k IH].
  - cbn [up_text app ups]. change (txt ".." ++ 47 :: s) with ([46; 46] ++ 47 :: s). rewrite split_on_app by reflexivity. reflexivity.
  - change (up_text (S k) ++ 47 :: s) with (47 :: (txt ".." ++ (up_text k ++ 47 :: s))). change (txt ".." ++ 47 :: ?a) with ([46; 46] ++ 47 :: a). rewrite split_on_app by reflexivity. rewrite IH. reflexivity.
Qed.

(* ---- ranges ---- *)
Lemma show_no_char d n : is_digit d = false -> no_char d (show n) = true.
Proof. intros H. apply digit_no_char; [exact H|apply show_digits]. Qed.
Lemma digits_no_ws' n : no_ws (show n) = true. Proof. apply digits_no_ws, show_digits. Qed.
Lemma calc_range_pieces a b len :
  no_char 61 a = true -> no_char 61 b = true -> no_char 44 a = true -> no_char 44 b = true -> no_char 45 a = true -> no_char 45 b = true ->
  no_ws a = true -> no_ws b = true ->
  calc_bytes_range (txt "bytes=" ++ a ++ txt "-" ++ b) len =
    match (match a with [] => Some 0 | _ => parse_uint u64_max a end), (match b with [] => Some len | _ => parse_uint u64_max b end) with
    | Some s, Some e => if e <? s then None else Some (s, e)
    | _, _ => None
    end.
Proof.
  intros A1 B1 A2 B2 A3 B3 A4 B4. unfold calc_bytes_range. change (txt "bytes=" ++ a ++ txt "-" ++ b) with (txt "bytes" ++ 61 :: (a ++ 45 :: b)).
  rewrite split_on_app by reflexivity.
  assert (J : forall d, d <> 45 -> no_char d a = true -> no_char d b = true -> no_char d (a ++ 45 :: b) = true).
  { intros d Hd Ha Hb. rewrite no_char_app, Ha. change (45 :: b) with ([45] ++ b). rewrite no_char_app, Hb. unfold no_char. cbn [forallb]. destruct (N.eqb_spec 45 d); [congruence|reflexivity]. }
  rewrite split_on_one by (apply J; auto; discriminate). change (leqb (trim (txt "bytes")) (txt "bytes")) with true. cbv iota.
  rewrite split_on_one by (apply J; auto; discriminate).
  rewrite trim_no_ws. 2:{ rewrite no_ws_app, A4. change (45 :: b) with ([45] ++ b). rewrite no_ws_app, B4. reflexivity. }
  rewrite split_on_app by assumption. rewrite split_on_one by assumption.
  destruct (match a with [] => Some 0 | _ => parse_uint u64_max a end); [|reflexivity].
  destruct (match b with [] => Some len | _ => parse_uint u64_max b end); reflexivity.
Qed.
Lemma show_case (n : N) {A} (x y : A) : (match show n with [] => x | _ => y end) = y.
Proof. pose proof (show_nonempty n). destruct (show n); [congruence|reflexivity]. Qed.
Lemma calc_range_all r len : range_valid r -> calc_bytes_range (range_text r) len =
  match r with FirstLast a b => Some (a, b) | From a => if len <? a then None else Some (a, len) | Suffix n => Some (0, n) end.
Proof.
  intros V. assert (P : forall n, n <= u64_max -> (match show n with [] => Some 0 | _ => parse_uint u64_max (show n) end) = Some n).
  { intros n Hn. pose proof (show_nonempty n). destruct (show n) eqn:E; [congruence|]. rewrite <- E. apply parse_show. exact Hn. }
  assert (P' : forall n, n <= u64_max -> (match show n with [] => Some len | _ => parse_uint u64_max (show n) end) = Some n).
  { intros n Hn. pose proof (show_nonempty n). destruct (show n) eqn:E; [congruence|]. rewrite <- E. apply parse_show. exact Hn. }
  destruct r as [a b|a|n]; unfold range_text; cbn [range_valid] in V.
  - rewrite calc_range_pieces by (reflexivity || (apply show_no_char; reflexivity) || apply digits_no_ws'). rewrite P, P' by lia.
    destruct (N.ltb_spec b a); [lia|reflexivity].
  - change (show a ++ txt "-") with (show a ++ txt "-" ++ []). rewrite calc_range_pieces by (reflexivity || (apply show_no_char; reflexivity) || apply digits_no_ws'). rewrite P by lia. reflexivity.
  - change (txt "-" ++ show n) with ([] ++ txt "-" ++ show n). rewrite calc_range_pieces by (reflexivity || (apply show_no_char; reflexivity) || apply digits_no_ws'). rewrite P' by lia. destruct (N.ltb_spec n 0); [lia|reflexivity].
Qed.

(* ---- responses ---- *)
Lemma hset_body k v r : s_body (hset k v r) = s_body r. Proof. reflexivity. Qed.
Lemma hset_status k v r : s_status (hset k v r) = s_status r. Proof. reflexivity. Qed.
Lemma plain_body c r : s_body (plain_headers c r) = s_body r.
Proof. unfold plain_headers. destruct (f_cache c), (f_cors c), (f_nocomp c); reflexivity. Qed.
Lemma plain_status c r : s_status (plain_headers c r) = s_status r.
Proof. unfold plain_headers. destruct (f_cache c), (f_cors c), (f_nocomp c); reflexivity. Qed.
Lemma meta_body f mt len r : s_body (meta_headers f mt len r) = s_body r.
Proof. unfold meta_headers. destruct mt; reflexivity. Qed.
Lemma meta_status f mt len r : s_status (meta_headers f mt len r) = s_status r.
Proof. unfold meta_headers. destruct mt; reflexivity. Qed.
Lemma lookup_insert (k v : text) (m : list (text * text)) : lookup leqb k (insert leqb k v m) = Some v.
Proof. induction m as [|(k', v') m IH]; cbn [insert lookup]; [now rewrite leqb_refl|]. destruct (leqb k k') eqn:E; cbn [lookup]; [now rewrite leqb_refl|now rewrite E]. Qed.
Lemma lookup_insert_ne (k k' v : text) (m : list (text * text)) : k' <> k -> lookup leqb k' (insert leqb k v m) = lookup leqb k' m.
Proof.
  intros H. assert (F : leqb k' k = false). { destruct (leqb k' k) eqn:E; [apply leqb_ok in E; congruence|reflexivity]. }
  induction m as [|(a, b) m IH]; cbn [insert lookup]; [now rewrite F|]. destruct (leqb k a) eqn:E; cbn [lookup].
  - apply leqb_ok in E. subst a. now rewrite F.
  - now rewrite IH.
Qed.
Lemma hget_hset k v r : hget k (hset k v r) = Some v. Proof. apply lookup_insert. Qed.
Lemma hget_hset_ne k k' v r : k' <> k -> hget k' (hset k v r) = hget k' r. Proof. apply lookup_insert_ne. Qed.
Lemma hget_body k b r : hget k (set_body b r) = hget k r. Proof. reflexivity. Qed.
Lemma hget_status k n r : hget k (set_status n r) = hget k r. Proof. reflexivity. Qed.

Section Srv.
  Context (date : text -> option N) (fmt : N -> text) (seek : option N -> N -> N -> bool).
  Lemma head_body_body q len r : s_body (head_body q len r) = s_body r \/ s_body (head_body q len r) = BNone.
  Proof. unfold head_body. destruct (q_head q); [right; reflexivity|left; reflexivity]. Qed.
  Lemma after_body c q mt len r0 : let b := s_body (fst (after_file date fmt seek c q mt len r0)) in
    b = BNone \/ b = s_body r0 \/ exists s e, b = with_part (s_body r0) s e.
  Proof.
    unfold after_file. set (r := meta_headers fmt mt len (plain_headers c r0)).
    assert (R : s_body r = s_body r0) by (unfold r; now rewrite meta_body, plain_body).
    destruct (range_wanted q); [|cbn [fst]; destruct (head_body_body q len r) as [E|E]; rewrite E; auto].
    destruct (if_range_ok date q mt len); [|cbn [fst]; auto].
    destruct (q_range q) as [v|]; [|cbn [fst]; destruct (head_body_body q len r) as [E|E]; rewrite E; auto].
    destruct (calc_bytes_range v len) as [(s, e)|].
    - destruct (seek (body_len (s_body r)) s e); cbn [fst]; [|auto].
      match goal with |- context [head_body q len ?x] => destruct (head_body_body q len x) as [E|E]; rewrite E end; [|auto].
      right. right. exists s, e. cbn [s_body set_status hset set_body]. now rewrite R.
    - cbn [fst]. match goal with |- context [head_body q len ?x] => destruct (head_body_body q len x) as [E|E]; rewrite E end; auto.
  Qed.
  Lemma cache_body c q mt len r : try_cache date fmt seek c q mt len = Some r -> s_body r = BNone.
  Proof.
    assert (B : s_body (fst (after_file date fmt seek c q mt len (FResp 304 [] BNone))) = BNone).
    { destruct (after_body c q mt len (FResp 304 [] BNone)) as [E|[E|(s & e & E)]]; exact E. }
    unfold try_cache. destruct (match q_inm q with Some v => leqb v (calc_etag mt len) | None => false end); [intros [= <-]; exact B|].
    destruct (q_ims q), mt; try discriminate. destruct (_ =? _); [intros [= <-]; exact B|discriminate].
  Qed.

  Context (fs : node) (cwd : list text).
  Lemma send_shows c q m ns enc r x : send_file date fmt seek fs c q m ns enc = Ok r -> shows r x -> x = ns.
  Proof.
    unfold send_file. destruct (at_names fs ns) as [[content mt|es]|]; try discriminate.
    destruct (try_cache date fmt seek c q mt (nlen content)) as [r'|] eqn:T.
    - intros [= ->] S. apply cache_body in T. destruct S as [(ct & p & S)|(l & S)]; congruence.
    - match goal with |- context [after_file date fmt seek c q mt (nlen content) ?x] => set (r0 := x) end.
      destruct (after_file date fmt seek c q mt (nlen content) r0) as (r1, ok) eqn:A. destruct ok; [|discriminate]. intros [= <-] S.
      assert (B := after_body c q mt (nlen content) r0). rewrite A in B. cbn [fst] in B.
      assert (B0 : s_body r0 = BFile ns content None). { unfold r0. rewrite !hset_body. destruct enc; reflexivity. }
      destruct S as [(ct & p & S)|(l & S)]; destruct B as [B|[B|(s & e & B)]]; rewrite B0 in B || idtac; rewrite S in B; try discriminate; cbn [with_part] in B; congruence.
  Qed.
  Lemma find_pre_names pre a real e ns : find_pre fs cwd pre a real = Some (e, ns) ->
    In e pre /\ exists sfx, (sfx = txt ".gz" \/ sfx = txt ".br") /\ resolve fs cwd (real ++ sfx) = Some ns.
  Proof.
    induction pre as [|f pre IH]; cbn [find_pre]; [discriminate|]. intros H.
    assert (K : find_pre fs cwd pre a real = Some (e, ns) -> In e (f :: pre) /\ exists sfx, (sfx = txt ".gz" \/ sfx = txt ".br") /\ resolve fs cwd (real ++ sfx) = Some ns).
    { intros X. destruct (IH X) as (I & X'). split; [right; exact I|exact X']. }
    destruct (contains f a); [|apply K; exact H]. destruct (leqb f (txt "gzip")).
    - destruct (resolve fs cwd (real ++ txt ".gz")) as [n|] eqn:R; [|apply K; exact H]. injection H as <- <-. split; [left; reflexivity|]. exists (txt ".gz"). auto.
    - destruct (leqb f (txt "br")); [|apply K; exact H]. destruct (resolve fs cwd (real ++ txt ".br")) as [n|] eqn:R; [|apply K; exact H]. injection H as <- <-. split; [left; reflexivity|]. exists (txt ".br"). auto.
  Qed.
  Definition suffixes : list text := [[]; txt ".gz"; txt ".br"].
  Lemma by_file_shows c q real r ns : by_file date fmt seek fs cwd c q real = Ok (Some r) -> shows r ns ->
    exists sfx, In sfx suffixes /\ resolve fs cwd (real ++ sfx) = Some ns /\ (f_pre c = [] \/ q_accept q = None -> sfx = []).
  Proof.
    unfold by_file. destruct (match q_accept q with Some a => find_pre fs cwd (f_pre c) a real | None => None end) as [(e, ms)|] eqn:P.
    - destruct (send_file date fmt seek fs c q _ ms (Some e)) as [r'| |] eqn:S; try discriminate. cbn [rbind]. intros [= <-] H.
      rewrite (send_shows _ _ _ _ _ _ _ S H). destruct (q_accept q) as [a|]; [|discriminate]. destruct (find_pre_names _ _ _ _ _ P) as (I & sfx & X & R).
      exists sfx. split; [unfold suffixes; cbn [In]; destruct X as [->| ->]; auto|]. split; [exact R|]. intros [Z|Z]; [rewrite Z in I; destruct I|discriminate].
    - destruct (resolve fs cwd real) as [ms|] eqn:R; [|discriminate].
      destruct (send_file date fmt seek fs c q _ ms None) as [r'| |] eqn:S; try discriminate. cbn [rbind]. intros [= <-] H.
      rewrite (send_shows _ _ _ _ _ _ _ S H). exists []. rewrite app_nil_r. split; [left; reflexivity|auto].
  Qed.
  Lemma plain_shows c msg r ns : plain_error c msg = Ok r -> shows r ns -> False.
  Proof. unfold plain_error. destruct (_ && _); [|discriminate]. intros [= <-] [(a & b & X)|(a & X)]; discriminate. Qed.
  Lemma error_shows c q msg r ns : ret_error date fmt seek fs cwd c q msg = Ok r -> shows r ns ->
    exists p sfx, f_path404 c = Some p /\ In sfx suffixes /\ resolve fs cwd (p ++ sfx) = Some ns.
  Proof.
    unfold ret_error. assert (N := plain_shows c msg r ns).
    destruct (f_status c =? 404); [|intros E H; destruct (N E H)]. destruct (f_path404 c) as [p|]; [|intros E H; destruct (N E H)].
    destruct (by_file date fmt seek fs cwd c q p) as [[r'|]| |] eqn:B; try discriminate; try (intros E H; destruct (N E H)). intros [= <-] H.
    destruct (by_file_shows _ _ _ _ _ B H) as (sfx & I & R & _). eauto.
  Qed.
  Lemma index_cases ixs : forall real, find_index fs cwd ixs real = real \/ exists i, In i ixs /\ find_index fs cwd ixs real = join real i.
  Proof.
    induction ixs as [|i ixs IH]; intros real; cbn [find_index]; [auto|]. destruct (resolve fs cwd (join real i)); [right; exists i; split; [left|]; reflexivity|].
    destruct (IH real) as [E|(j & I & E)]; [auto|]. right. exists j. split; [right; exact I|exact E].
  Qed.

  Context (decode : text -> option text) (cwdt : text).
  (* how a response that shows something comes about *)
  Lemma deal_shows c q r ns : deal decode date fmt seek fs cwd cwdt c q = Ok r -> shows r ns ->
    (exists p sfx, f_path404 c = Some p /\ In sfx suffixes /\ resolve fs cwd (p ++ sfx) = Some ns) \/
    (exists h x real, decoded decode (q_path q) = f_prefix c ++ h /\ (h = 47 :: x \/ h = x) /\ is_hide c (root_of cwdt c) = false /\
       (real = root_of cwdt c ++ 47 :: x \/ exists i, In i (f_index c) /\ real = join (root_of cwdt c ++ 47 :: x) i) /\
       ((exists content part sfx, s_body r = BFile ns content part /\ In sfx suffixes /\ resolve fs cwd (real ++ sfx) = Some ns /\ (f_pre c = [] \/ q_accept q = None -> sfx = []) /\ is_hide c (decoded decode (q_path q)) = false) \/
        (s_body r = BList ns (list_dir fs c (root_of cwdt c) real ns) /\ resolve fs cwd real = Some ns))).
  Proof.
    unfold deal. destruct (if leqb (q_path q) (txt "/robots.txt") then f_robots c else None).
    { intros [= <-] S. exfalso. destruct S as [(a & b & S)|(a & S)]; rewrite plain_body in S; discriminate. }
    destruct (starts_with (f_prefix c) (q_path q)); [|intros E S; left; eapply error_shows; [exact E|exact S]].
    destruct (strip_prefix (f_prefix c) (decoded decode (q_path q))) as [h|] eqn:P; [|discriminate].
    apply strip_prefix_some in P. set (path := decoded decode (q_path q)) in *. set (root := root_of cwdt c).
    assert (X : exists x, (h = 47 :: x \/ h = x) /\ (if starts_with (txt "/") h then h else txt "/" ++ h) = 47 :: x).
    { destruct (starts_with (txt "/") h) eqn:E; [apply starts_ok in E; destruct E as (x & E); exists x; change (txt "/") with [47] in E; cbn [app] in E; rewrite E; auto|].
      exists h. split; [auto|reflexivity]. }
    destruct X as (x & X1 & X2). rewrite X2.
    destruct (negb (path_starts_with (root ++ 47 :: x) root) || is_hide c root) eqn:G; [intros E S; left; eapply error_shows; [exact E|exact S]|].
    apply orb_false_iff in G. destruct G as (_ & G).
    set (real := if is_dir fs cwd (root ++ 47 :: x) then find_index fs cwd (f_index c) (root ++ 47 :: x) else root ++ 47 :: x).
    assert (RC : real = root ++ 47 :: x \/ exists i, In i (f_index c) /\ real = join (root ++ 47 :: x) i).
    { unfold real. destruct (is_dir fs cwd (root ++ 47 :: x)); [|auto]. apply index_cases. }
    destruct (if is_dir fs cwd real then resolve fs cwd real else None) as [ms|] eqn:D.
    - destruct (is_dir fs cwd real); [|discriminate]. destruct (f_browse c); [|intros E S; left; eapply error_shows; [exact E|exact S]].
      destruct (strip_fails fs c root real ms); [discriminate|]. intros [= <-] S. right. exists h, x, real. do 4 (split; [assumption || auto|]). right.
      assert (B : forall l, s_body (if f_nocomp c then hset (txt "Content-Encoding") [] (FResp 200 [(txt "Content-Type", txt "text/html; charset=utf-8")] (BList ms l)) else FResp 200 [(txt "Content-Type", txt "text/html; charset=utf-8")] (BList ms l)) = BList ms l) by (intros l; destruct (f_nocomp c); reflexivity).
      rewrite B. assert (ns = ms). { destruct S as [(a & b & S)|(a & S)]; rewrite B in S; [discriminate|congruence]. } subst ms. auto.
    - destruct (is_hide c path) eqn:HP; [intros E S; left; eapply error_shows; [exact E|exact S]|].
      destruct (by_file date fmt seek fs cwd c q real) as [[r'|]| |] eqn:B; cbn [rbind]; try discriminate; [|intros E S; left; eapply error_shows; [exact E|exact S]].
      intros [= <-] S. right. exists h, x, real. do 4 (split; [assumption || auto|]). left. destruct (by_file_shows _ _ _ _ _ B S) as (sfx & I & R & Z).
      destruct S as [(a & b & S)|(a & S)]; [exists a, b, sfx; auto 10|].
      (* a file response is never a listing *)
      exfalso. clear - B S. unfold by_file in B.
      assert (SF : forall m n e, send_file date fmt seek fs c q m n e = Ok r' -> False).
      { intros m n e SF. unfold send_file in SF. destruct (at_names fs n) as [[content mt|es]|]; try discriminate.
        destruct (try_cache date fmt seek c q mt (nlen content)) as [r2|] eqn:T; [injection SF as ->; apply cache_body in T; congruence|].
        match type of SF with context [after_file date fmt seek c q mt (nlen content) ?y] => set (r0 := y) in SF end.
        assert (B0 : s_body r0 = BFile n content None). { unfold r0. rewrite !hset_body. destruct e; reflexivity. }
        destruct (after_file date fmt seek c q mt (nlen content) r0) as (r1, ok) eqn:A. destruct ok; [|discriminate]. injection SF as ->.
        assert (BB := after_body c q mt (nlen content) r0). rewrite A in BB. cbn [fst] in BB. rewrite B0, S in BB. destruct BB as [BB|[BB|(s & e' & BB)]]; discriminate. }
      destruct (match q_accept q with Some a => find_pre fs cwd (f_pre c) a real | None => None end) as [(e, ms)|].
      + destruct (send_file date fmt seek fs c q _ ms (Some e)) eqn:E; try discriminate. injection B as ->. eapply SF; exact E.
      + destruct (resolve fs cwd real) as [ms|]; [|discriminate]. destruct (send_file date fmt seek fs c q _ ms None) eqn:E; try discriminate. injection B as ->. eapply SF; exact E.
  Qed.
End Srv.

(* ---- segments ---- *)
Lemma split_acc_sfx d (sfx : text) s : no_char d sfx = true -> forall acc p, In p (split_acc d acc (s ++ sfx)) -> In p (split_acc d acc s) \/ exists p', p = p' ++ sfx.
Proof.
  intros N. induction s as [|x s IH]; intros acc p I; cbn [app split_acc] in *.
  - rewrite split_acc_one in I by exact N. destruct I as [<-|[]]. right. eauto.
  - destruct (x =? d); [|apply IH; exact I]. destruct I as [<-|I]; [left; left; reflexivity|]. destruct (IH _ _ I) as [J|J]; [left; right; exact J|auto].
Qed.
Lemma split_sfx d (sfx s : text) p : no_char d sfx = true -> In p (split_on d (s ++ sfx)) -> In p (split_on d s) \/ exists p', p = p' ++ sfx.
Proof. intros N. apply split_acc_sfx. exact N. Qed.
Lemma dotdot_sfx sfx p' : In sfx suffixes -> txt ".." = p' ++ sfx -> sfx = [].
Proof.
  intros [<-|[<-|[<-|[]]]] E; [reflexivity| |]; apply (f_equal (@rev N)) in E; rewrite rev_app_distr in E; vm_compute in E; destruct (rev p'); discriminate.
Qed.
Lemma suffix_no_slash sfx : In sfx suffixes -> no_char 47 sfx = true.
Proof. intros [<-|[<-|[<-|[]]]]; reflexivity. Qed.
Lemma ends_slash p : ends_with (txt "/") p = true -> exists y, p = y ++ [47].
Proof. intros H. apply ends_with_true in H. exact H. Qed.
(* the path of an index file is below the directory in the same way *)
Lemma join_shape root x i : absolute i = false -> exists y, join (root ++ 47 :: x) i = root ++ 47 :: y /\
  forall p, In p (split_on 47 y) -> In p (split_on 47 x) \/ In p (split_on 47 i).
Proof.
  intros A. unfold join. rewrite A. assert (NE : root ++ 47 :: x <> []) by (destruct root; discriminate).
  destruct (root ++ 47 :: x) as [|c0 s0] eqn:E; [congruence|]. rewrite <- E. clear c0 s0 E NE.
  destruct (ends_with (txt "/") (root ++ 47 :: x)) eqn:W.
  - exists (x ++ i). split; [now rewrite <- app_assoc|]. intros p I. apply ends_slash in W. destruct W as (y & W).
    destruct x as [|c x'] using rev_ind; [right; exact I|]. clear IHx'.
    change (root ++ 47 :: x' ++ [c]) with (root ++ (47 :: x') ++ [c]) in W. rewrite app_assoc in W. apply app_inj_tail in W. destruct W as (_ & ->).
    rewrite <- app_assoc in I. change ([47] ++ i) with (47 :: i) in I. rewrite split_on_gen in I. apply in_app_iff in I. destruct I as [I|I]; [left|auto].
    change (x' ++ [47]) with (x' ++ 47 :: []). rewrite split_on_gen. apply in_app_iff. auto.
  - exists (x ++ 47 :: i). split; [change (txt "/" ++ i) with (47 :: i); now rewrite <- app_assoc|]. intros p I. rewrite split_on_gen in I. apply in_app_iff in I. exact I.
Qed.
Lemma contains_percent s : contains (txt "%") s = false <-> ~ In 37 s.
Proof.
  change (txt "%") with [37]. split.
  - intros H I. apply in_split in I. destruct I as (a & b & ->). assert (X : contains [37] (a ++ 37 :: b) = true) by (apply contains_ok; exists a, b; reflexivity). congruence.
  - intros H. destruct (contains [37] s) eqn:E; [|reflexivity]. apply contains_ok in E. destruct E as (a & b & ->). destruct H. apply in_or_app. right. left. reflexivity.
Qed.
Lemma hide_none c p : is_hide c p = false <-> unhidden c p.
Proof.
  unfold is_hide. split.
  - intros H h I O. apply contains_ok in O. assert (X : existsb (fun h0 => contains h0 p) (f_hide c) = true) by (apply existsb_exists; eauto). congruence.
  - intros H. destruct (existsb _ _) eqn:E; [|reflexivity]. apply existsb_exists in E. destruct E as (h & I & O). apply contains_ok in O. destruct (H _ I O).
Qed.
Lemma head_no_slash (h : list N) : forall (m : list N) ns (b : list N), ~ In 47 h -> h <> [] -> m ++ full_path ns = h ++ b -> exists b', m = h ++ b'.
Proof.
  induction h as [|h0 h IHh]; intros m ns b NS NE E; [congruence|]. destruct m as [|m0 m].
  - destruct ns as [|n1 ns]; cbn [full_path app] in E; [discriminate E|]. injection E as E _. destruct NS. left. congruence.
  - cbn [app] in E. injection E as <- E. destruct h as [|h1 h]; [exists m; reflexivity|].
    destruct (IHh m ns b) as (b' & F); [intros I; apply NS; right; exact I|discriminate|exact E|]. exists b'. cbn [app]. f_equal. exact F.
Qed.
(* a pattern without slash that occurs in a path occurs in one of its names *)
Lemma occurs_name h ns : ~ In 47 h -> h <> [] -> occurs h (full_path ns) -> exists n, In n ns /\ occurs h n.
Proof.
  intros NS NE. induction ns as [|n ns IH]; cbn [full_path]; intros (a & b & E); unfold text in E.
  - exfalso. destruct a; [|discriminate]. destruct h; [congruence|discriminate].
  - destruct a as [|a0 a]; [destruct h as [|h0 h]; [congruence|]; injection E as <- _; destruct NS; left; reflexivity|]. injection E as <- E.
    assert (C : (exists b', n = a ++ h ++ b') \/ occurs h (full_path ns)).
    { clear IH. revert a E. induction n as [|y n IHn]; intros a E.
      - right. exists a, b. exact E.
      - destruct a as [|z a].
        + left. exact (head_no_slash h (y :: n) ns b NS NE E).
        + injection E as <- E. destruct (IHn a E) as [(b' & F)|O]; [left; exists b'; cbn; now f_equal|auto]. }
    destruct C as [(b' & ->)|O]; [exists (a ++ h ++ b'); split; [left; reflexivity|exists a, b'; reflexivity]|].
    destruct (IH O) as (m & I & X). exists m. split; [right; exact I|exact X].
Qed.

(* ---- answering a plain request for an existing file ---- *)
Definition unconditional (q : freq) : Prop := q_inm q = None /\ q_ims q = None /\ q_range q = None /\ q_if_range q = None.
Section Plain.
  Context (date : text -> option N) (fmt : N -> text) (seek : option N -> N -> N -> bool) (fs : node) (cwd : list text).
  Lemma send_plain c q m ns enc content mt : unconditional q -> q_head q = false -> at_names fs ns = Some (File content mt) ->
    exists r, send_file date fmt seek fs c q m ns enc = Ok r /\ s_status r = 200 /\ s_body r = BFile ns content None.
  Proof.
    intros (I1 & I2 & I3 & I4) Hh A. unfold send_file. rewrite A. unfold try_cache. rewrite I1, I2. unfold after_file, if_range_ok. rewrite I3, I4.
    unfold head_body. rewrite Hh. destruct (range_wanted q).
    all: eexists; split; [reflexivity|]. all: rewrite meta_status, meta_body, plain_status, plain_body, !hset_status, !hset_body; destruct enc; split; reflexivity.
  Qed.
  Context (decode : text -> option text) (cwdt : text).
  Lemma deal_plain c q x ns content mt : q_path q = f_prefix c ++ 47 :: x -> f_robots c = None -> ~ In 37 (q_path q) ->
    is_hide c (root_of cwdt c) = false -> is_hide c (q_path q) = false ->
    resolve fs cwd (root_of cwdt c ++ 47 :: x) = Some ns -> at_names fs ns = Some (File content mt) ->
    deal decode date fmt seek fs cwd cwdt c q = (do o <- by_file date fmt seek fs cwd c q (root_of cwdt c ++ 47 :: x) ; match o with Some r => Ok r | None => ret_error date fmt seek fs cwd c q (txt "can't view file") end).
  Proof.
    intros P RB NP H1 H2 R A. unfold deal. rewrite RB. replace (if leqb (q_path q) (txt "/robots.txt") then @None text else None) with (@None text) by (destruct (leqb _ _); reflexivity).
    replace (starts_with (f_prefix c) (q_path q)) with true by (symmetry; apply starts_ok; exists (47 :: x); exact P).
    unfold decoded. apply contains_percent in NP. rewrite NP.
    replace (strip_prefix (f_prefix c) (q_path q)) with (Some (47 :: x)) by (symmetry; apply strip_prefix_some; exact P).
    replace (starts_with (txt "/") (47 :: x)) with true by (symmetry; apply starts_ok; exists x; reflexivity).
    rewrite prefix_always, H1. cbn [negb orb].
    assert (ND : is_dir fs cwd (root_of cwdt c ++ 47 :: x) = false). { unfold is_dir. rewrite R. unfold is_dir_at. now rewrite A. }
    rewrite ND. rewrite ND. rewrite H2. reflexivity.
  Qed.
End Plain.

Section Asks.
  Context (decode : text -> option text) (date : text -> option N) (fmt : N -> text) (seek : option N -> N -> N -> bool) (fs : node) (cwd : list text) (cwdt : text).
  Lemma deal_asks c q ns content mt : asks_for fs cwd cwdt c q ns content mt ->
    exists m, deal decode date fmt seek fs cwd cwdt c q = send_file date fmt seek fs c q m ns None /\ at_names fs ns = Some (File content mt).
  Proof.
    intros (x & P & RB & NP & H1 & H2 & R & A & AC). apply hide_none in H1, H2. rewrite (deal_plain date fmt seek fs cwd decode cwdt c q x ns content mt) by assumption.
    exists (get_mimetype c (extension (root_of cwdt c ++ 47 :: x))). split; [|exact A]. unfold by_file.
    replace (match q_accept q with Some a => find_pre fs cwd (f_pre c) a (root_of cwdt c ++ 47 :: x) | None => None end) with (@None (text * list text)).
    2:{ destruct AC as [-> | ->]; [destruct (q_accept q)|]; reflexivity. }
    rewrite R. destruct (send_file date fmt seek fs c q _ ns None); reflexivity.
  Qed.
End Asks.

(* leading / and ./ do not matter to the operating system *)
Lemma strip_lead_walk t cur : is_dir_at t cur = true -> forall s, path_walk t cur (split_on 47 (strip_lead s)) = path_walk t cur (split_on 47 s).
Proof.
  intros D s. assert (E0 : forall rest, path_walk t cur ([] :: rest) = path_walk t cur rest). { intros rest. cbn [path_walk]. unfold path_step. now rewrite D. }
  assert (E1 : forall rest, path_walk t cur ([46] :: rest) = path_walk t cur rest). { intros rest. cbn [path_walk]. unfold path_step. now rewrite D. }
  remember (length s) as k eqn:Hk. assert (L : (length s <= k)%nat) by lia. clear Hk. revert s L.
  induction k as [|k IH]; intros s L.
  - destruct s; [reflexivity|cbn in L; lia].
  - destruct s as [|a s]; [reflexivity|]. cbn [strip_lead]. cbn [length] in L. destruct (N.eqb_spec a 47) as [->|].
    + rewrite split_on_cons, E0. apply IH. lia.
    + destruct (N.eqb_spec a 46) as [->|]; [|reflexivity]. destruct s as [|d s].
      * change (split_on 47 []) with [@nil N]. change (split_on 47 [46]) with [[46]]. rewrite E0, E1. reflexivity.
      * destruct (N.eqb_spec d 47) as [->|]; [|reflexivity]. change (46 :: 47 :: s) with ([46] ++ 47 :: s). rewrite split_on_app by reflexivity. rewrite E1. apply IH. cbn [length] in L. lia.
Qed.

Lemma plain_enc c r : hget (txt "Content-Encoding") (plain_headers c r) = if f_nocomp c then Some [] else hget (txt "Content-Encoding") r.
Proof.
  unfold plain_headers. destruct (f_nocomp c); [apply hget_hset|]. destruct (f_cache c), (f_cors c); rewrite ?hget_hset_ne by discriminate; reflexivity.
Qed.
Lemma after_enc date fmt seek c q mt len r0 : hget (txt "Content-Encoding") (fst (after_file date fmt seek c q mt len r0)) = if f_nocomp c then Some [] else hget (txt "Content-Encoding") r0.
Proof.
  unfold after_file. set (r := meta_headers fmt mt len (plain_headers c r0)).
  assert (R : hget (txt "Content-Encoding") r = if f_nocomp c then Some [] else hget (txt "Content-Encoding") r0).
  { unfold r, meta_headers. destruct mt; rewrite ?hget_hset_ne by discriminate; apply plain_enc. }
  rewrite <- R. assert (H : forall x, hget (txt "Content-Encoding") (head_body q len x) = hget (txt "Content-Encoding") x).
  { intros x. unfold head_body. destruct (q_head q); [|reflexivity]. rewrite !hget_hset_ne by discriminate. reflexivity. }
  destruct (range_wanted q); [|cbn [fst]; apply H]. destruct (if_range_ok date q mt len); [|reflexivity].
  destruct (q_range q) as [v|]; [|cbn [fst]; apply H]. destruct (calc_bytes_range v len) as [(s, e)|].
  - destruct (seek _ s e); cbn [fst]; [|reflexivity]. rewrite H, hget_status. rewrite hget_hset_ne by discriminate. reflexivity.
  - cbn [fst]. rewrite H, hget_body. rewrite hget_hset_ne by discriminate. reflexivity.
Qed.

(* a check of names_wf *)
Definition name_okb (n : text) : bool := negb (leqb n []) && negb (leqb n (txt ".")) && negb (leqb n (txt "..")) && no_char 47 n.
Fixpoint tree_okb (t : node) : bool :=
  match t with
  | File _ _ => true
  | Dir es => (fix go (es : list (text * node)) : bool := match es with [] => true | (n, t') :: es' => name_okb n && tree_okb t' && go es' end) es
  end.
Lemma name_okb_ok n : name_okb n = true -> name_ok n.
Proof.
  unfold name_okb, name_ok. rewrite !andb_true_iff, !negb_true_iff. intros (((H1 & H2) & H3) & H4). repeat split.
  - intros ->. discriminate.
  - intros ->. discriminate.
  - intros ->. discriminate.
  - intros I. unfold no_char in H4. rewrite forallb_forall in H4. specialize (H4 _ I). discriminate.
Qed.
Lemma tree_okb_ok t : tree_okb t = true -> names_wf t.
Proof.
  intros H ns. revert t H. induction ns as [|m ns IH]; intros t H n I; cbn [at_names] in I.
  - destruct t as [|es]; [destruct I|]. cbn [tree_okb] in H. induction es as [|(k, t') es IHes]; [destruct I|]. rewrite !andb_true_iff in H. destruct H as ((H1 & H2) & H3). destruct I as [<-|I]; [apply name_okb_ok; exact H1|apply IHes; assumption].
  - destruct t as [|es]; [destruct I|]. destruct (lookup leqb m es) as [t'|] eqn:L; [|destruct I]. apply (IH t'); [|exact I]. clear - H L. cbn [tree_okb] in H.
    induction es as [|(k, t0) es IHes]; [discriminate|]. rewrite !andb_true_iff in H. destruct H as ((H1 & H2) & H3). cbn [lookup] in L. destruct (leqb m k); [injection L as ->; exact H2|apply IHes; assumption].
Qed.

(* ---- media types ------------------------------------------------------------------ *)
Lemma split_snoc c s e : no_char c e = true -> split_on c (s ++ c :: e) = split_on c s ++ [e].
Proof. intros He. rewrite split_on_gen, (split_on_one c e He). reflexivity. Qed.
Lemma split_single c y : split_on c y = [[]] -> y = [].
Proof.
  intros H. destruct y as [|d y]; [reflexivity|]. exfalso. destruct (N.eqb_spec d c) as [->|Hd].
  - rewrite split_on_cons in H. injection H. apply split_nonempty.
  - destruct (in_dec N.eq_dec c (d :: y)) as [I|I].
    + apply in_split in I as (a & b & E). rewrite E, split_on_gen in H.
      pose proof (split_nonempty c a). pose proof (split_nonempty c b). destruct (split_on c a) as [|? [|]], (split_on c b); try discriminate; contradiction.
    + rewrite split_on_one in H by (apply no_in; exact I). discriminate.
Qed.
Lemma extension_name a y e : ~ In 47 (y ++ 46 :: e) -> ~ In 46 e -> y <> [] -> e <> [] -> extension (a ++ 47 :: y ++ 46 :: e) = e.
Proof.
  intros H1 H2 Hy He. set (f := y ++ 46 :: e) in *. assert (Hf : f <> []) by (unfold f; destruct y; discriminate).
  assert (Hl : (3 <= length f)%nat).
  { unfold f. rewrite app_length. destruct y; [contradiction|]. destruct e; [contradiction|]. cbn [length]. lia. }
  assert (Hd : f <> txt ".") by (intros X; rewrite X in Hl; cbn in Hl; lia).
  assert (Hdd : f <> txt "..") by (intros X; rewrite X in Hl; cbn in Hl; lia).
  assert (C : List.last (comps (a ++ 47 :: f)) [] = f).
  { unfold comps. rewrite split_snoc by (apply no_in; exact H1).
    assert (K : forall l, List.last (filter (fun c => negb (leqb c [] || leqb c (txt "."))) (l ++ [f])) [] = f).
    { intros l. rewrite filter_app. cbn [filter]. destruct (leqb f []) eqn:E1; [apply leqb_ok in E1; contradiction|].
      destruct (leqb f (txt ".")) eqn:E2; [apply leqb_ok in E2; contradiction|]. cbn [orb negb]. apply last_last. }
    assert (Q : forall h l, List.last l [] = f -> List.last (h :: l) [] = f).
    { intros h l G. destruct l; [cbn in G; congruence|exact G]. }
    destruct (absolute (a ++ 47 :: f)); [apply Q, K|].
    destruct (split_on 47 a) as [|z l] eqn:E; [exfalso; revert E; apply split_nonempty|]. cbn [app].
    destruct (leqb z []); [apply K|apply Q, K]. }
  assert (Sf : @rev text (split_on 46 f) = e :: @rev text (split_on 46 y)) by (unfold f; rewrite split_snoc by (apply no_in; exact H2); apply rev_app_distr).
  unfold extension. rewrite C. clearbody f. destruct f as [|c0 f]; [contradiction|].
  destruct (leqb (c0 :: f) (txt "..")) eqn:E2; [apply leqb_ok in E2; congruence|].
  rewrite Sf.
  destruct (rev (split_on 46 y)) as [|z l] eqn:E.
  - exfalso. apply (split_nonempty 46 y). rewrite <- (rev_involutive (split_on 46 y)), E. reflexivity.
  - destruct z; [|reflexivity]. destruct l; [|reflexivity].
    exfalso. apply Hy, (split_single 46). rewrite <- (rev_involutive (split_on 46 y)), E. reflexivity.
Qed.
Lemma plain_type c r : hget (txt "Content-Type") (plain_headers c r) = hget (txt "Content-Type") r.
Proof.
  unfold plain_headers. destruct (f_nocomp c), (f_cache c), (f_cors c); rewrite ?hget_hset_ne by discriminate; reflexivity.
Qed.
Lemma after_type date fmt seek c q mt len r0 : hget (txt "Content-Type") (fst (after_file date fmt seek c q mt len r0)) = hget (txt "Content-Type") r0.
Proof.
  unfold after_file. set (r := meta_headers fmt mt len (plain_headers c r0)).
  assert (R : hget (txt "Content-Type") r = hget (txt "Content-Type") r0).
  { unfold r, meta_headers. destruct mt; rewrite ?hget_hset_ne by discriminate; apply plain_type. }
  rewrite <- R. assert (H : forall x, hget (txt "Content-Type") (head_body q len x) = hget (txt "Content-Type") x).
  { intros x. unfold head_body. destruct (q_head q); [|reflexivity]. rewrite !hget_hset_ne by discriminate. reflexivity. }
  destruct (range_wanted q); [|cbn [fst]; apply H]. destruct (if_range_ok date q mt len); [|reflexivity].
  destruct (q_range q) as [v|]; [|cbn [fst]; apply H]. destruct (calc_bytes_range v len) as [(s, e)|].
  - destruct (seek _ s e); cbn [fst]; [|reflexivity]. rewrite H, hget_status. rewrite hget_hset_ne by discriminate. reflexivity.
  - cbn [fst]. rewrite H, hget_body. rewrite hget_hset_ne by discriminate. reflexivity.
Qed.
Lemma asks_type decode date fmt seek fs cwd cwdt c q ns content mt d y e r :
  asks_for fs cwd cwdt c q ns content mt -> q_inm q = None -> q_ims q = None ->
  q_path q = f_prefix c ++ d ++ 47 :: y ++ 46 :: e -> ~ In 47 (y ++ 46 :: e) -> ~ In 46 e -> y <> [] -> e <> [] ->
  deal decode date fmt seek fs cwd cwdt c q = Ok r ->
  hget (txt "Content-Type") r = Some (get_mimetype c e ++ txt "; charset=utf-8").
Proof.
  intros AF I1 I2 P H1 H2 Hy He. destruct AF as (x & P' & RB & NP & X1 & X2 & R & A & AC). apply hide_none in X1, X2.
  rewrite (deal_plain date fmt seek fs cwd decode cwdt c q x ns content mt) by assumption.
  assert (Ex : 47 :: x = d ++ 47 :: y ++ 46 :: e) by (apply (app_inv_head (f_prefix c)); congruence).
  rewrite Ex in *. replace (root_of cwdt c ++ d ++ 47 :: y ++ 46 :: e) with ((root_of cwdt c ++ d) ++ 47 :: y ++ 46 :: e) in * by (rewrite <- app_assoc; reflexivity).
  unfold by_file.
  replace (match q_accept q with Some a => find_pre fs cwd (f_pre c) a _ | None => None end) with (@None (text * list text)).
  2:{ destruct AC as [-> | ->]; [destruct (q_accept q)|]; reflexivity. }
  rewrite R. rewrite extension_name by assumption. unfold send_file. rewrite A. unfold try_cache. rewrite I1, I2. cbn [fst].
  match goal with |- context [after_file date fmt seek c q mt (nlen content) ?x] => pose proof (after_type date fmt seek c q mt (nlen content) x) as T;
    destruct (after_file date fmt seek c q mt (nlen content) x) as [r2 ok] end.
  cbn [fst] in T. destruct ok; cbn [rbind]; [|discriminate]. intros E. injection E as <-. rewrite T.
  rewrite hget_hset_ne by discriminate. apply hget_hset.
Qed.
