(* C179: the types of files of common kinds. *)
From Coq Require Import String.
From Verif Require Import Base Text TextOps FileModel FileSpec FileProofs FileProps FtSpec.
Open Scope N_scope.

(* C179, full statement: a file whose name ends in one of the known extensions, in capital or
   small letters, is sent with the type of its kind, which is a type and a subtype. *)
Theorem C179_type_partial : forall decode date fmt seek fs cwd cwdt c q ns content mt d y t e r,
  asks_for fs cwd cwdt c q ns content mt -> q_inm q = None -> q_ims q = None ->
  q_path q = f_prefix c ++ d ++ 47 :: y ++ 46 :: txt e -> ~ In 47 y -> y <> [] -> is_kind t e -> e <> "rar"%string ->
  deal decode date fmt seek fs cwd cwdt c q = Ok r ->
  media_type (txt t) /\ hget (txt "Content-Type") r = Some (txt t ++ txt "; charset=utf-8").
Proof.
  intros decode date fmt seek fs cwd cwdt c q ns content mt d y t e r A I1 I2 P N47 NE K NR H.
  assert (Q : (~ In 47 (txt e) /\ ~ In 46 (txt e) /\ txt e <> []) /\ lookup leqb (txt e) default_mime = Some (txt t) /\ media_type (txt t)).
  { destruct K as (es & K1 & K2). unfold kinds in K1. cbn [In] in K1.
    repeat (destruct K1 as [K1|K1];
      [injection K1 as <- <-; cbn [In] in K2;
       repeat (destruct K2 as [<-|K2];
         [try (exfalso; apply NR; reflexivity);
          (split; [split; [|split]; vm_compute; intuition discriminate|split; [vm_compute; reflexivity|]];
           match goal with |- media_type (txt ?s) =>
             let i := eval vm_compute in (match String.index 0 "/" s with Some n => n | None => O end) in
             let a := eval vm_compute in (txt (String.substring 0 i s)) in
             let b := eval vm_compute in (txt (String.substring (S i) (String.length s) s)) in
             exists a, b; split; [vm_compute; reflexivity|split; [discriminate|split; [discriminate|split; cbn [In]; intuition discriminate]]]
           end)|]); destruct K2|]).
    destruct K1. }
  destruct Q as ((Q1 & Q2 & Q3) & Q4 & Q5). split; [exact Q5|].
  assert (W : ~ In 47 (y ++ 46 :: txt e)) by (intros X; apply in_app_or in X as [X|[X|X]]; [exact (N47 X)|discriminate X|exact (Q1 X)]).
  rewrite (asks_type _ _ _ _ _ _ _ _ _ _ _ _ _ _ _ _ A I1 I2 P W Q2 NE Q3 H). unfold get_mimetype. rewrite Q4. reflexivity.
Qed.
(* False of the code for rar: the type is application/application/x-rar-compressed, which
   is no media type, whatever is configured. *)
Theorem C179_rar_refuted : forall decode date fmt seek fs cwd cwdt c q ns content mt d y r,
  asks_for fs cwd cwdt c q ns content mt -> q_inm q = None -> q_ims q = None ->
  q_path q = f_prefix c ++ d ++ 47 :: y ++ txt ".rar" -> ~ In 47 y -> y <> [] ->
  deal decode date fmt seek fs cwd cwdt c q = Ok r ->
  exists m, hget (txt "Content-Type") r = Some (m ++ txt "; charset=utf-8") /\ ~ media_type m.
Proof.
  intros decode date fmt seek fs cwd cwdt c q ns content mt d y r A I1 I2 P N47 NE H.
  change (txt ".rar") with (46 :: txt "rar") in P.
  assert (W : ~ In 47 (y ++ 46 :: txt "rar")) by (intros X; apply in_app_or in X as [X|X]; [exact (N47 X)|vm_compute in X; intuition discriminate]).
  assert (Q2 : ~ In 46 (txt "rar")) by (vm_compute; intuition discriminate). assert (Q3 : txt "rar" <> []) by discriminate.
  exists (txt "application/application/x-rar-compressed"). split.
  - rewrite (asks_type _ _ _ _ _ _ _ _ _ _ _ _ _ _ _ _ A I1 I2 P W Q2 NE Q3 H). reflexivity.
  - intros (a & b & E & _ & _ & Na & Nb). assert (F : (count_occ N.eq_dec (txt "application/application/x-rar-compressed") 47%N = 2)%nat) by (vm_compute; reflexivity).
    rewrite E, count_occ_app in F. cbn [count_occ] in F. destruct (N.eq_dec 47 47) as [_|X]; [|destruct X; reflexivity].
    apply (count_occ_not_In N.eq_dec) in Na, Nb. rewrite Na, Nb in F. discriminate F.
Qed.
(* False of the code for capital letters: an extension with one has the default type, unless
   it is configured in that spelling. *)
Theorem C179_capital_refuted : forall decode date fmt seek fs cwd cwdt c q ns content mt d y e b r,
  asks_for fs cwd cwdt c q ns content mt -> q_inm q = None -> q_ims q = None ->
  q_path q = f_prefix c ++ d ++ 47 :: y ++ 46 :: e -> ~ In 47 (y ++ 46 :: e) -> ~ In 46 e -> y <> [] ->
  In b e -> 65 <= b <= 90 -> lookup leqb e (f_ext_mime c) = None ->
  deal decode date fmt seek fs cwd cwdt c q = Ok r ->
  hget (txt "Content-Type") r = Some (f_mime c ++ txt "; charset=utf-8").
Proof.
  intros decode date fmt seek fs cwd cwdt c q ns content mt d y e b r A I1 I2 P W Q2 NE Ib B L H.
  assert (Q3 : e <> []) by (intros ->; destruct Ib).
  assert (Q4 : lookup leqb e default_mime = None).
  { destruct (lookup leqb e default_mime) as [m|] eqn:E; [|reflexivity]. exfalso. apply (lookup_In leqb leqb_ok) in E.
    assert (F : forallb (fun kv => forallb (fun x => negb ((65 <=? x) && (x <=? 90))) (fst kv)) default_mime = true) by (vm_compute; reflexivity).
    rewrite forallb_forall in F. specialize (F _ E). cbn [fst] in F. rewrite forallb_forall in F. specialize (F _ Ib).
    destruct (N.leb_spec 65 b), (N.leb_spec b 90); try discriminate F; lia. }
  rewrite (asks_type _ _ _ _ _ _ _ _ _ _ _ _ _ _ _ _ A I1 I2 P W Q2 NE Q3 H). unfold get_mimetype. rewrite Q4, L. reflexivity.
Qed.
(* a page, an archive and a page in capital letters that meet the hypotheses *)
Definition ft_fs : node := Dir [(txt "a.html", File [1] None); (txt "b.rar", File [2] None); (txt "c.HTML", File [3] None)].
Definition ft_cfg : fcfg := FCfg (Some (txt "/")) [] (txt "a/b") [] None None None [] [] 404 [] false true false.
Definition ft_deal := deal no_decode no_date (fun _ => []) (fun _ _ _ => true) ft_fs [] (txt "/") ft_cfg.
Example C179_case : is_kind "text/html" "html" /\
  asks_for ft_fs [] (txt "/") ft_cfg (get (txt "/a.html")) [txt "a.html"] [1] None /\
  asks_for ft_fs [] (txt "/") ft_cfg (get (txt "/b.rar")) [txt "b.rar"] [2] None /\
  asks_for ft_fs [] (txt "/") ft_cfg (get (txt "/c.HTML")) [txt "c.HTML"] [3] None /\
  (exists r, ft_deal (get (txt "/a.html")) = Ok r /\ hget (txt "Content-Type") r = Some (txt "text/html; charset=utf-8")) /\
  (exists r, ft_deal (get (txt "/b.rar")) = Ok r) /\ (exists r, ft_deal (get (txt "/c.HTML")) = Ok r).
Proof.
  split; [exists ["html"; "htm"; "shtml"]%string; split; left; reflexivity|].
  assert (U : forall p, unhidden ft_cfg p) by (intros p; cbn; intros h []).
  split; [exists (txt "a.html")|split; [exists (txt "b.rar")|split; [exists (txt "c.HTML")|]]].
  1-3: split; [reflexivity|split; [reflexivity|split; [vm_compute; intuition discriminate|split; [apply U|split; [apply U|split; [vm_compute; reflexivity|split; [vm_compute; reflexivity|left; reflexivity]]]]]]].
  split; [eexists; split; vm_compute; reflexivity|]. split; eexists; vm_compute; reflexivity.
Qed.
Print Assumptions C179_type_partial.
Print Assumptions C179_rar_refuted.
Print Assumptions C179_capital_refuted.
