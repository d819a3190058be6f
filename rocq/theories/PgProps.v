(* The page of a directory listing. *)
From Coq Require Import String.
From Verif Require Import Base Text TextOps FileModel FileSpec FileProofs FileProps PgModel PgSpec.
Open Scope N_scope.

Lemma size_ok len : size_shown len (file_size len).
Proof.
  unfold file_size, size_shown. change (1024 * 1024) with (1024 ^ 2). change (1024 ^ 2 * 1024) with (1024 ^ 3).
  assert (D : forall u, 0 < u -> len / u * u <= len < (len / u + 1) * u).
  { intros u U. assert (M := N.div_mod len u ltac:(lia)). assert (L := N.mod_lt len u ltac:(lia)). nia. }
  destruct (N.ltb_spec len 1024) as [A|A]; [exists len, 1, 66; repeat split; try lia; left; reflexivity|].
  destruct (N.ltb_spec len (1024 ^ 2)) as [B|B].
  { assert (Q := D 1024 ltac:(lia)). exists (len / 1024), 1024, 75. change (1024 ^ 2) with (1024 * 1024) in B. split; [right; left; reflexivity|]. split; [reflexivity|]. split; [exact Q|]. split; intros _; nia. }
  destruct (N.ltb_spec len (1024 ^ 3)) as [C|C].
  { assert (Q := D (1024 ^ 2) ltac:(lia)). exists (len / 1024 ^ 2), (1024 ^ 2), 77. change (1024 ^ 3) with (1024 ^ 2 * 1024) in C. split; [right; right; left; reflexivity|]. split; [reflexivity|]. set (u := 1024 ^ 2) in *. clearbody u. split; [exact Q|]. split; intros _; nia. }
  assert (Q := D (1024 ^ 3) ltac:(lia)). exists (len / 1024 ^ 3), (1024 ^ 3), 71. split; [right; right; right; left; reflexivity|]. split; [reflexivity|]. set (u := 1024 ^ 3) in *. clearbody u. split; [exact Q|]. split; [intros _; nia|congruence].
Qed.

(* ---- the rows of a listing ---- *)
Definition folder_rows (fs : node) (ns : list text) (links : list (text * text)) : list row :=
  flat_map (fun ln => match at_names fs (ns ++ [snd ln]) with Some (Dir _) => [Folder (snd ln) (fst ln)] | _ => [] end) links.
Definition plain_rows (fs : node) (ns : list text) (links : list (text * text)) : list row :=
  flat_map (fun ln => match at_names fs (ns ++ [snd ln]) with Some (File content _) => [Plain (snd ln) (fst ln) (nlen content)] | _ => [] end) links.
Lemma at_child fs ns es n : at_names fs ns = Some (Dir es) -> at_names fs (ns ++ [n]) = lookup leqb n es.
Proof.
  revert fs. induction ns as [|m ns IH]; intros fs H; cbn [app at_names] in *.
  - injection H as ->. destruct (lookup leqb n es); reflexivity.
  - destruct fs as [|es']; [discriminate|]. destruct (lookup leqb m es'); [apply IH; exact H|discriminate].
Qed.
Lemma lookup_in (es : list (text * node)) n : NoDup (map fst es) -> forall x, lookup leqb n es = Some x <-> In (n, x) es.
Proof.
  induction es as [|[m y] es IH]; intros ND x; cbn [lookup map fst In] in *; [split; [discriminate|intros []]|]. inversion ND as [|? ? NI ND']; subst. destruct (leqb n m) eqn:E.
  - apply leqb_ok in E. subst m. split; [intros [= ->]; auto|]. intros [[= ->]|I]; [reflexivity|]. destruct NI. apply in_map_iff. exists (n, x). auto.
  - rewrite IH by exact ND'. split; [auto|]. intros [[= -> ->]|I]; [rewrite leqb_refl in E; discriminate|exact I].
Qed.
Lemma folder_lines fs ns links : exists lines, Forall2 shown_row (folder_rows fs ns links) lines /\ folder_part fs ns links = List.concat lines.
Proof.
  induction links as [|[l n] links (lines & F & E)]; [exists []; split; [constructor|reflexivity]|]. unfold folder_rows, folder_part in *. cbn [flat_map map List.concat fst snd]. rewrite E.
  destruct (at_names fs (ns ++ [n])) as [[|x]|]; [exists lines; auto| |exists lines; auto]. exists (folder_row l n :: lines). split; [constructor; [|exact F]|reflexivity].
  unfold shown_row, folder_row, link_cell. rewrite <- !app_assoc. reflexivity.
Qed.
Lemma file_lines fs ns links : (forall l n, In (l, n) links -> at_names fs (ns ++ [n]) <> None) -> exists lines, Forall2 shown_row (plain_rows fs ns links) lines /\ file_part fs ns links = List.concat lines.
Proof.
  intros H. induction links as [|[l n] links IH]; [exists []; split; [constructor|reflexivity]|]. destruct IH as (lines & F & E); [intros l' n' I; apply (H l'); right; exact I|]. unfold plain_rows, file_part in *. cbn [flat_map map List.concat fst snd]. rewrite E.
  destruct (at_names fs (ns ++ [n])) as [[content mt|x]|] eqn:A; [|exists lines; auto|destruct (H l n (or_introl eq_refl) A)]. exists (file_row l n (nlen content) :: lines). split; [|reflexivity].
  constructor; [|exact F]. exists (file_size (nlen content)). split; [apply size_ok|]. unfold file_row, link_cell. rewrite <- !app_assoc. reflexivity.
Qed.
Lemma row_names_in fs ns links x : In x (map row_name (folder_rows fs ns links ++ plain_rows fs ns links)) -> In x (map snd links).
Proof.
  rewrite map_app, in_app_iff. intros [I|I]; apply in_map_iff in I; destruct I as (r & <- & I); apply in_flat_map in I; destruct I as ((l, n) & I & J); cbn [fst snd] in J;
    destruct (at_names fs (ns ++ [n])) as [[|]|]; destruct J as [<-|[]] || destruct J; apply in_map_iff; exists (l, n); auto.
Qed.
Lemma rows_nodup fs ns links : NoDup (map snd links) -> NoDup (map row_name (folder_rows fs ns links ++ plain_rows fs ns links)).
Proof.
  induction links as [|[l n] links IH]; intros ND; [constructor|]. cbn [map snd] in ND. inversion ND as [|? ? NI ND']; subst. specialize (IH ND').
  assert (NR : ~ In n (map row_name (folder_rows fs ns links ++ plain_rows fs ns links))) by (intros I; apply NI; eapply row_names_in; exact I).
  unfold folder_rows, plain_rows in *. cbn [flat_map fst snd]. destruct (at_names fs (ns ++ [n])) as [[content mt|x]|]; [| |exact IH].
  - cbn [app]. rewrite map_app in *. cbn [map row_name]. apply NoDup_Add with (a := n) (l := map row_name (folder_rows fs ns links) ++ map row_name (plain_rows fs ns links)); [apply Add_app|]. auto.
  - cbn [app map row_name]. constructor; assumption.
Qed.

(* ---- a listing comes from a directory, never from a file ---- *)
Section Lists.
  Context (decode : text -> option text) (date : text -> option N) (fmt : N -> text) (seek : option N -> N -> N -> bool) (fs : node) (cwd : list text) (cwdt : text).
  Lemma send_not_list c q m n e r ns links : send_file date fmt seek fs c q m n e = Ok r -> s_body r = BList ns links -> False.
  Proof.
    intros SF S. unfold send_file in SF. destruct (at_names fs n) as [[content mt|es]|]; try discriminate.
    destruct (try_cache date fmt seek c q mt (nlen content)) as [r2|] eqn:T; [injection SF as ->; apply cache_body in T; congruence|].
    match type of SF with context [after_file date fmt seek c q mt (nlen content) ?y] => set (r0 := y) in SF end.
    assert (B0 : s_body r0 = BFile n content None). { unfold r0. rewrite !hset_body. destruct e; reflexivity. }
    destruct (after_file date fmt seek c q mt (nlen content) r0) as (r1, ok) eqn:A. destruct ok; [|discriminate]. injection SF as ->.
    assert (BB := after_body date fmt seek c q mt (nlen content) r0). rewrite A in BB. cbn [fst] in BB. rewrite B0, S in BB. destruct BB as [BB|[BB|(s & e' & BB)]]; discriminate.
  Qed.
  Lemma by_file_not_list c q p r ns links : by_file date fmt seek fs cwd c q p = Ok (Some r) -> s_body r = BList ns links -> False.
  Proof.
    intros B S. unfold by_file in B. destruct (match q_accept q with Some a => find_pre fs cwd (f_pre c) a p | None => None end) as [(e, ms)|].
    - destruct (send_file date fmt seek fs c q _ ms (Some e)) eqn:E; try discriminate. injection B as ->. eapply send_not_list; [exact E|exact S].
    - destruct (resolve fs cwd p) as [ms|]; [|discriminate]. destruct (send_file date fmt seek fs c q _ ms None) eqn:E; try discriminate. injection B as ->. eapply send_not_list; [exact E|exact S].
  Qed.
  Lemma error_not_list c q msg r ns links : ret_error date fmt seek fs cwd c q msg = Ok r -> s_body r = BList ns links -> False.
  Proof.
    assert (PE : plain_error c msg = Ok r -> s_body r = BList ns links -> False) by (intros E S; eapply plain_shows; [exact E|right; eauto]).
    unfold ret_error. destruct (f_status c =? 404); [|exact PE]. destruct (f_path404 c) as [p|]; [|exact PE].
    destruct (by_file date fmt seek fs cwd c q p) as [[r'|]| |] eqn:B; try discriminate; try exact PE. intros [= ->]. apply (by_file_not_list _ _ _ _ _ _ B).
  Qed.
  Lemma deal_lists c q r ns links : deal decode date fmt seek fs cwd cwdt c q = Ok r -> s_body r = BList ns links ->
    exists h real, decoded decode (q_path q) = f_prefix c ++ h /\ resolve fs cwd real = Some ns /\ links = list_dir fs c (root_of cwdt c) real ns.
  Proof.
    unfold deal. destruct (if leqb (q_path q) (txt "/robots.txt") then f_robots c else None).
    { intros [= <-] S. rewrite plain_body in S. discriminate. }
    destruct (starts_with (f_prefix c) (q_path q)); [|intros EE S; destruct (error_not_list _ _ _ _ _ _ EE S)].
    destruct (strip_prefix (f_prefix c) (decoded decode (q_path q))) as [h|] eqn:P; [|discriminate]. apply strip_prefix_some in P.
    cbv zeta. match goal with |- context [path_starts_with ?z _] => set (real0 := z) end.
    destruct (negb (path_starts_with real0 (root_of cwdt c)) || is_hide c (root_of cwdt c)); [intros EE S; destruct (error_not_list _ _ _ _ _ _ EE S)|].
    set (real := if is_dir fs cwd real0 then find_index fs cwd (f_index c) real0 else real0).
    destruct (if is_dir fs cwd real then resolve fs cwd real else None) as [ms|] eqn:D.
    - destruct (is_dir fs cwd real); [|discriminate]. destruct (f_browse c); [|intros EE S; destruct (error_not_list _ _ _ _ _ _ EE S)].
      destruct (strip_fails fs c (root_of cwdt c) real ms); [discriminate|]. intros [= <-] S. exists h, real. split; [exact P|].
      destruct (f_nocomp c); injection S as <- <-; auto.
    - destruct (is_hide c (decoded decode (q_path q))); [intros EE S; destruct (error_not_list _ _ _ _ _ _ EE S)|].
      destruct (by_file date fmt seek fs cwd c q real) as [[r'|]| |] eqn:B; cbn [rbind]; try discriminate; [intros [= <-] S; destruct (by_file_not_list _ _ _ _ _ _ B S)|intros EE S; destruct (error_not_list _ _ _ _ _ _ EE S)].
  Qed.
End Lists.

(* ---- C165: what a listing shows ------------------------------------------------------ *)
Theorem C165_listing : forall pre after decode date fmt seek fs cwd cwdt c q r ns links es,
  deal decode date fmt seek fs cwd cwdt c q = Ok r -> s_body r = BList ns links -> at_names fs ns = Some (Dir es) -> NoDup (map fst es) ->
  exists real href rows t, page_of pre after fs decode c q r = Some t /\ shown_page pre after href rows t /\
    (decoded decode (q_path q) = f_prefix c ++ href \/ exists x, href = 47 :: x /\ decoded decode (q_path q) = f_prefix c ++ x) /\
    resolve fs cwd real = Some ns /\
    (exists folders plains, rows = folders ++ plains /\ Forall is_folder folders /\ Forall (fun x => ~ is_folder x) plains) /\
    NoDup (map row_name rows) /\ 
    (forall n, In n (map row_name rows) <-> In n (map fst es) /\ unhidden c (join real n)) /\
    (forall x, In x rows -> In (row_link x, row_name x) links /\
       match x with Folder n _ => exists sub, In (n, Dir sub) es | Plain n _ len => exists content mt, In (n, File content mt) es /\ len = nlen content end).
Proof.
  intros pre after decode date fmt seek fs cwd cwdt c q r ns links es D B A ND.
  destruct (deal_lists _ _ _ _ _ _ _ _ _ _ _ _ D B) as (h & real & P & R & EL).
  assert (CH := fun n => at_child fs ns es n A).
  assert (LN : forall n, In n (map snd links) <-> In n (map fst es) /\ unhidden c (join real n)).
  { intros n. rewrite EL. unfold list_dir, entries. rewrite A, map_map. cbn [snd]. rewrite map_id, filter_In, negb_true_iff, hide_none. reflexivity. }
  assert (NL : NoDup (map snd links)). { rewrite EL. unfold list_dir, entries. rewrite A, map_map. cbn [snd]. rewrite map_id. apply NoDup_filter. exact ND. }
  assert (EX : forall l n, In (l, n) links -> exists x, In (n, x) es).
  { intros l n I. assert (J : In n (map snd links)) by (apply in_map_iff; exists (l, n); auto). apply LN in J. destruct J as (J & _). apply in_map_iff in J. destruct J as ((m, x) & <- & J). exists x. exact J. }
  assert (SOME : forall l n, In (l, n) links -> at_names fs (ns ++ [n]) <> None).
  { intros l n I. destruct (EX _ _ I) as (x & J). rewrite CH. apply (lookup_in es n ND) in J. rewrite J. discriminate. }
  set (href := if starts_with (txt "/") h then h else txt "/" ++ h).
  exists real, href, (folder_rows fs ns links ++ plain_rows fs ns links), (page pre after fs href ns links).
  assert (SP : strip_prefix (f_prefix c) (decoded decode (q_path q)) = Some h) by (apply strip_prefix_some; exact P).
  split; [unfold page_of, href_of; rewrite B, SP; reflexivity|].
  split. { destruct (folder_lines fs ns links) as (a & F1 & E1). destruct (file_lines fs ns links SOME) as (b & F2 & E2). exists (a ++ b). split; [apply Forall2_app; assumption|].
    unfold page. rewrite E1, E2, concat_app, <- !app_assoc. reflexivity. }
  split. { unfold href. destruct (starts_with (txt "/") h); [left; exact P|right; exists h; split; [reflexivity|exact P]]. }
  split; [exact R|]. split. { exists (folder_rows fs ns links), (plain_rows fs ns links). split; [reflexivity|]. split; apply Forall_forall; intros x I; apply in_flat_map in I; destruct I as ((l, n) & _ & I); destruct (at_names fs (ns ++ [snd (l, n)])) as [[|]|]; destruct I as [<-|[]] || destruct I; cbn; tauto. }
  split; [apply rows_nodup; exact NL|]. split.
  - intros n. rewrite <- LN. split; [apply row_names_in|]. intros I. apply in_map_iff in I. destruct I as ((l, m) & <- & I). cbn [snd]. destruct (at_names fs (ns ++ [m])) as [[content mt|sub]|] eqn:N; [| |destruct (SOME _ _ I N)].
    + apply in_map_iff. exists (Plain m l (nlen content)). split; [reflexivity|]. apply in_app_iff. right. apply in_flat_map. exists (l, m). split; [exact I|]. cbn [fst snd]. rewrite N. left. reflexivity.
    + apply in_map_iff. exists (Folder m l). split; [reflexivity|]. apply in_app_iff. left. apply in_flat_map. exists (l, m). split; [exact I|]. cbn [fst snd]. rewrite N. left. reflexivity.
  - intros x I. apply in_app_iff in I. destruct I as [I|I]; apply in_flat_map in I; destruct I as ((l, n) & I & J); cbn [fst snd] in J; rewrite CH in J; destruct (lookup leqb n es) as [[content mt|sub]|] eqn:N; destruct J as [<-|[]] || destruct J;
      apply (lookup_in es n ND) in N; (split; [exact I|eauto]).
Qed.
Definition page_fs : node := Dir [(txt "w", Dir [(txt "b.txt", File (repeat 0 1536) None); (txt "sub", Dir []); (txt "key", File [1; 2] None)])].
Definition page_cfg : fcfg := FCfg (Some (txt "/w")) [] [] [] None None None [txt "key"] [] 404 [] false true false.
Example C165_case : exists r, deal no_decode no_date (fun _ => []) (fun _ _ _ => true) page_fs [] (txt "/") page_cfg (get (txt "/")) = Ok r /\
  s_body r = BList [txt "w"] [(txt "/b.txt", txt "b.txt"); (txt "/sub", txt "sub")] /\ file_size 1536 = txt "1K" /\
  page_of [] [] page_fs no_decode page_cfg (get (txt "/")) r = Some
    (txt "/<body><h1>Index Of /</h1><table>" ++ [13; 10] ++ txt "<tbody>" ++
     txt "<tr><td><i class=""icon icon-_blank""></i></td><td class=""file-size""><code></code></td><td><a href=""/sub"">sub</td></tr>" ++
     txt "<tr><td><i class=""icon icon-_page""></i></td><td class=""file-size""><code>1K</code></td><td><a href=""/b.txt"">b.txt</td></tr>" ++
     txt "</tbody>" ++ [13; 10] ++ txt "</table><br><address>wengmeng <a href=""https://github.com/tickbh/wenmeng"">wenmeng</a></address></body></html>").
Proof. eexists. split; [vm_compute; reflexivity|]. split; [vm_compute; reflexivity|]. split; vm_compute; reflexivity. Qed.

(* ---- C166: names cannot be mistaken for markup ----------------------------------------- *)
Lemma cut_at (d : N) a : forall b x y, ~ In d a -> ~ In d b -> a ++ d :: x = b ++ d :: y -> a = b /\ x = y.
Proof.
  induction a as [|c a IH]; intros [|e b] x y NA NB E; cbn [app] in E.
  - injection E as ->. auto.
  - injection E as -> _. destruct NB. left. reflexivity.
  - injection E as -> _. destruct NA. left. reflexivity.
  - injection E as -> E. destruct (IH b x y) as (-> & ->); [intros I; apply NA; right; exact I|intros I; apply NB; right; exact I|exact E|]. auto.
Qed.
Lemma size_plain len s : size_shown len s -> ~ In 60 s.
Proof.
  intros (k & u & letter & I & -> & _) J. apply in_app_iff in J. destruct J as [J|[J|[]]].
  - assert (H := show_digits k). rewrite forallb_forall in H. apply H in J. discriminate.
  - subst letter. unfold units in I. cbn [In] in I. repeat destruct I as [I|I]; try discriminate. destruct I.
Qed.
Definition safe_row (r : row) : Prop := no_markup (row_name r) /\ no_markup (row_link r).
Definition same_row (a b : row) : Prop := row_name a = row_name b /\ row_link a = row_link b /\ (is_folder a <-> is_folder b).
(* the end of a row: the link, the name *)
Lemma cell_cut l n l' n' x y : no_markup n -> no_markup l -> no_markup n' -> no_markup l' ->
  l ++ txt """>" ++ n ++ txt "</td></tr>" ++ x = l' ++ txt """>" ++ n' ++ txt "</td></tr>" ++ y -> l = l' /\ n = n' /\ x = y.
Proof.
  intros (_ & N1) (L1 & _) (_ & N2) (L2 & _) E.
  assert (Q : forall z, txt """>" ++ z = 34 :: [62] ++ z) by reflexivity. assert (Q2 : forall z, txt "</td></tr>" ++ z = 60 :: txt "/td></tr>" ++ z) by reflexivity. rewrite !Q, !Q2 in E.
  apply cut_at in E; [|assumption|assumption]. destruct E as (-> & E). apply app_inv_head in E.
  apply cut_at in E; [|assumption|assumption]. destruct E as (-> & E). apply app_inv_head in E. auto.
Qed.
Lemma row_cut a b ta tb x y : shown_row a ta -> shown_row b tb -> safe_row a -> safe_row b -> ta ++ x = tb ++ y -> same_row a b /\ x = y.
Proof.
  intros SA SB (N1 & L1) (N2 & L2) E. destruct a as [n l|n l len], b as [n' l'|n' l' len']; cbn [shown_row row_name row_link] in *.
  - subst ta tb. rewrite <- !app_assoc in E. apply app_inv_head in E. apply cell_cut in E; try assumption. destruct E as (-> & -> & ->). split; [repeat split; auto|reflexivity].
  - exfalso. destruct SB as (s & _ & ->). subst ta. rewrite <- !app_assoc in E. vm_compute in E. discriminate.
  - exfalso. destruct SA as (s & _ & ->). subst tb. rewrite <- !app_assoc in E. vm_compute in E. discriminate.
  - destruct SA as (s & S1 & ->), SB as (s' & S2 & ->). rewrite <- !app_assoc in E. apply app_inv_head in E.
    assert (Q : forall z, txt "</code></td><td><a href=""" ++ z = 60 :: txt "/code></td><td><a href=""" ++ z) by reflexivity. rewrite !Q in E. apply cut_at in E; [|eapply size_plain; eassumption|eapply size_plain; eassumption]. destruct E as (_ & E).
    apply app_inv_head in E. apply cell_cut in E; try assumption. destruct E as (-> & -> & ->). split; [split; [reflexivity|split; [reflexivity|reflexivity]]|reflexivity].
Qed.
Lemma rows_cut rows : forall rows' lines lines' x, Forall2 shown_row rows lines -> Forall2 shown_row rows' lines' -> Forall safe_row rows -> Forall safe_row rows' ->
  List.concat lines ++ txt "</tbody>" ++ x = List.concat lines' ++ txt "</tbody>" ++ x -> Forall2 same_row rows rows'.
Proof.
  assert (START : forall a t x, shown_row a t -> exists y, t ++ x = txt "<tr" ++ y).
  { intros a t x S. destruct a; cbn [shown_row] in S; [subst t|destruct S as (s & _ & ->)]; rewrite <- !app_assoc; eexists; reflexivity. }
  induction rows as [|a rows IH]; intros [|b rows'] lines lines' x F F' S S' E; inversion F as [|? ta ? la A1 A2]; inversion F' as [|? tb ? lb B1 B2]; subst; cbn [List.concat] in E.
  - constructor.
  - exfalso. destruct (START _ _ (List.concat lb ++ txt "</tbody>" ++ x) B1) as (y & Y). rewrite <- app_assoc, Y in E. discriminate.
  - exfalso. destruct (START _ _ (List.concat la ++ txt "</tbody>" ++ x) A1) as (y & Y). rewrite <- app_assoc, Y in E. discriminate.
  - inversion S; inversion S'; subst. rewrite <- !app_assoc in E. destruct (row_cut _ _ _ _ _ _ A1 B1 ltac:(assumption) ltac:(assumption) E) as (SR & E'). constructor; [exact SR|]. eapply IH; eassumption.
Qed.
(* a reader who takes the page for rows finds the entries of the directory and nothing
   else, if neither the names nor the links hold a quote or a less-than sign *)
Theorem C166_reading_partial : forall pre after decode date fmt seek fs cwd cwdt c q r ns links es t,
  deal decode date fmt seek fs cwd cwdt c q = Ok r -> s_body r = BList ns links -> at_names fs ns = Some (Dir es) -> NoDup (map fst es) ->
  (forall l n, In (l, n) links -> no_markup l /\ no_markup n) -> page_of pre after fs decode c q r = Some t ->
  exists real href, resolve fs cwd real = Some ns /\
    (decoded decode (q_path q) = f_prefix c ++ href \/ exists x, href = 47 :: x /\ decoded decode (q_path q) = f_prefix c ++ x) /\
    forall rows, shown_page pre after href rows t -> Forall safe_row rows ->
      forall n, In n (map row_name rows) <-> In n (map fst es) /\ unhidden c (join real n).
Proof.
  intros pre after decode date fmt seek fs cwd cwdt c q r ns links es t D B A ND SAFE T.
  destruct (C165_listing pre after _ _ _ _ _ _ _ _ _ _ _ _ _ D B A ND) as (real & href & rows0 & t' & T' & (lines0 & F0 & E0) & HR & R & _ & _ & NM & LK).
  rewrite T in T'. injection T' as <-. exists real, href. split; [exact R|]. split; [exact HR|]. intros rows (lines & F & E) SR n. rewrite <- NM.
  assert (S0 : Forall safe_row rows0). { apply Forall_forall. intros x I. destruct (LK x I) as (J & _). destruct (SAFE _ _ J). split; assumption. }
  assert (SM : Forall2 same_row rows rows0). { rewrite E in E0. do 8 apply app_inv_head in E0. eapply rows_cut; eassumption. }
  assert (MM : map row_name rows = map row_name rows0). { clear - SM. induction SM as [|a b l m (H & _) _ IH]; [reflexivity|]. cbn [map]. congruence. }
  rewrite MM. reflexivity.
Qed.
Example C166_case : forall l n, In (l, n) [(txt "/b.txt", txt "b.txt"); (txt "/sub", txt "sub")] -> no_markup l /\ no_markup n.
Proof. intros l n [[= <- <-]|[[= <- <-]|[]]]; repeat split; vm_compute; intuition discriminate. Qed.
(* false of the code in general: a name is copied into the page as it is *)
Definition script : text := txt "<img src=x onerror=alert(1)>".
Theorem C166_markup_refuted : forall pre after, exists r t,
  deal no_decode no_date (fun _ => []) (fun _ _ _ => true) (Dir [(txt "w", Dir [(script, File [1] None)])]) [] (txt "/") page_cfg (get (txt "/")) = Ok r /\
  page_of pre after (Dir [(txt "w", Dir [(script, File [1] None)])]) no_decode page_cfg (get (txt "/")) r = Some t /\
  exists a b, t = a ++ txt """>" ++ script ++ txt "</td>" ++ b.
Proof.
  intros pre after. eexists. eexists. split; [vm_compute; reflexivity|]. split; [unfold page_of; cbn [s_body href_of]; reflexivity|].
  exists (pre ++ txt "/" ++ after ++ txt "<body><h1>Index Of /</h1><table>" ++ [13; 10] ++ txt "<tbody><tr><td><i class=""icon icon-_page""></i></td><td class=""file-size""><code>1B</code></td><td><a href=""/" ++ script),
    (txt "</tr></tbody>" ++ [13; 10] ++ txt "</table><br><address>wengmeng <a href=""https://github.com/tickbh/wenmeng"">wenmeng</a></address></body></html>").
  unfold page. rewrite <- !app_assoc. reflexivity.
Qed.

Print Assumptions C165_listing.
Print Assumptions C166_reading_partial.
Print Assumptions C166_markup_refuted.
