(* Lemmas about showing a configuration and reading it again. *)
From Coq Require Import String Lia.
From Verif Require Import Base Text TextOps AddrModel AddrSpec AddrProps ConfModel ConfSpec ConfProofs ConfProps RouteModel RwModel RwSpec RwProps FmModel FmSpec FmProps NtModel NtSpec.
Open Scope N_scope.

Lemma every_ok {A B} (f : A -> res unit B) l r : every (map f l) = Ok r <-> Forall2 (fun x y => f x = Ok y) l r.
Proof.
  revert r. induction l as [|x l IH]; intros r; cbn [map every].
  - split; [intros [= <-]; constructor|intros H; inversion H; reflexivity].
  - split.
    + destruct (f x) as [y| |] eqn:E; cbn [rbind]; try discriminate. destruct (every (map f l)) as [q| |]; cbn [rbind]; try discriminate. intros [= <-]. constructor; [exact E|]. apply IH. reflexivity.
    + intros H. inversion H as [|? y ? q E F]; subst. rewrite E. cbn [rbind]. apply IH in F. rewrite F. reflexivity.
Qed.

Section Trip.
  Context (L : lib) (dflt : text -> schema -> data).
  Notation dump := (dump L).
  Notation load := (load L dflt).
  Definition survives (k : kind) (x : one) : Prop := exists t, show_one L k x = Ok t /\ read_one L k t = Ok x.
  Definition trip (s : schema) (d : data) : Prop := exists v, dump s d = Ok v /\ load s v = Ok d.

  Fixpoint dumps (fs : list (text * (bool * schema))) (t : list (text * data)) : res unit (list (text * val)) :=
    match fs, t with
    | (k, (_, s')) :: fs', (_, d') :: t' => do v <- dump s' d' ; do r <- dumps fs' t' ; Ok ((k, v) :: r)
    | _, _ => Ok []
    end.
  Lemma dump_struct fs t : dump (Struct fs) (DTab t) = do vs <- dumps fs t ; Ok (VTab vs).
  Proof.
    cbn [NtModel.dump]. f_equal.
  Qed.
  Fixpoint loads (t : list (text * val)) (fs : list (text * (bool * schema))) : res unit (list (text * data)) :=
    match fs with
    | [] => Ok []
    | (k, (must, s')) :: fs' =>
      match lookup leqb k t with
      | None => if must then Err tt else do r <- loads t fs' ; Ok ((k, dflt k s') :: r)
      | Some x => do d <- load s' x ; do r <- loads t fs' ; Ok ((k, d) :: r)
      end
    end.
  Lemma load_struct fs t : load (Struct fs) (VTab t) = do ds <- loads t fs ; Ok (DTab ds).
  Proof.
    cbn [NtModel.load]. f_equal. induction fs as [|[k [m s]] fs IH]; [reflexivity|]. cbn [loads]. destruct (lookup leqb k t); [destruct (load s v); cbn [rbind]; try reflexivity|destruct m; [reflexivity|]]; rewrite IH; reflexivity.
  Qed.

  Lemma dump_null s : forall d, dump s d = Ok VNull -> d = DNone.
  Proof.
    induction s as [k|s IH|s IH|s IH|s IH|fs IH] using schema_deep; intros d H.
    - cbn in H. destruct d; try discriminate. destruct (show_one L (kind_of k) x); discriminate.
    - destruct d; [reflexivity|..]; cbn [NtModel.dump] in H; exact (IH _ H).
    - cbn [NtModel.dump] in H. destruct d; try discriminate. destruct (every _); discriminate.
    - cbn [NtModel.dump] in H. destruct d; try discriminate. destruct (every _); discriminate.
    - exact (IH d H).
    - destruct d; try discriminate. rewrite dump_struct in H. destruct (dumps fs t); discriminate.
  Qed.
  Lemma dump_tab s : forall t v, dump s (DTab t) = Ok v -> exists t', v = VTab t'.
  Proof.
    induction s as [k|s IH|s IH|s IH|s IH|fs IH] using schema_deep; intros t v H; try discriminate.
    - exact (IH _ _ H).
    - cbn [NtModel.dump] in H. destruct (every _); try discriminate. injection H as <-. eauto.
    - exact (IH _ _ H).
    - rewrite dump_struct in H. destruct (dumps fs t); try discriminate. injection H as <-. eauto.
  Qed.
  Lemma dumps_trip fs : forall t, map fst t = map fst fs -> (forall k b s k' d, In ((k, (b, s)), (k', d)) (combine fs t) -> trip s d) ->
    exists vs, dumps fs t = Ok vs /\ map fst vs = map fst fs /\ forall T, (forall k v, In (k, v) vs -> lookup leqb k T = Some v) -> loads T fs = Ok t.
  Proof.
    induction fs as [|[k [b s]] fs IH]; intros [|[k' d] t] E H; try discriminate.
    - exists []. split; [reflexivity|]. split; [reflexivity|]. intros T _. reflexivity.
    - cbn [map fst] in E. injection E as E1 E2. subst k'. destruct (H k b s k d (or_introl eq_refl)) as (v & D & R).
      destruct (IH t E2) as (vs & V1 & V2 & V3); [intros k0 b0 s0 k1 d1 I; apply (H k0 b0 s0 k1 d1); right; exact I|].
      exists ((k, v) :: vs). cbn [dumps]. rewrite D, V1. split; [reflexivity|]. split; [cbn [map fst]; f_equal; exact V2|]. intros T HT. cbn [loads].
      rewrite (HT k v (or_introl eq_refl)), R. cbn [rbind]. rewrite (V3 T); [reflexivity|]. intros k0 v0 I. apply HT. right. exact I.
  Qed.
  Lemma dumps_back fs : forall t vs T, map fst t = map fst fs -> dumps fs t = Ok vs -> (forall k v, In (k, v) vs -> lookup leqb k T = Some v) -> loads T fs = Ok t ->
    forall k b s k' d, In ((k, (b, s)), (k', d)) (combine fs t) -> trip s d.
  Proof.
    induction fs as [|[k0 [b0 s0]] fs IH]; intros [|[k1 d1] t] vs T E D HT R k b s k' d I; try discriminate; [destruct I|].
    cbn [map fst] in E. injection E as E1 E2. subst k1. cbn [dumps] in D. destruct (dump s0 d1) as [v| |] eqn:Dv; cbn [rbind] in D; try discriminate.
    destruct (dumps fs t) as [vs'| |] eqn:Ds; cbn [rbind] in D; try discriminate. injection D as <-. cbn [loads] in R. rewrite (HT k0 v (or_introl eq_refl)) in R.
    destruct (load s0 v) as [d'| |] eqn:Ld; cbn [rbind] in R; try discriminate. destruct (loads T fs) as [t'| |] eqn:Lt; cbn [rbind] in R; try discriminate. injection R as R1 R2. subst d' t'.
    destruct I as [I|I]; [injection I as <- <- <- <- <-; exists v; split; assumption|]. refine (IH t vs' T E2 Ds _ Lt k b s k' d I). intros k2 v2 I2. apply HT. right. exact I2.
  Qed.
  Lemma assoc_lookup {A} (t : list (text * A)) : NoDup (map fst t) -> forall k v, In (k, v) t -> lookup leqb k t = Some v.
  Proof.
    induction t as [|[k0 v0] t IH]; intros H k v []; cbn [map fst] in H; inversion H as [|? ? H1 H2]; subst; cbn [lookup].
    - injection H0 as -> ->. rewrite leqb_refl. reflexivity.
    - destruct (leqb k k0) eqn:E; [|apply IH; assumption]. apply leqb_ok in E. subst k0. elim H1. apply in_map_iff. exists (k, v). split; [reflexivity|assumption].
  Qed.
  Lemma vec_trip (f : data -> res unit val) (g : val -> res unit data) l :
    (exists vs, every (map f l) = Ok vs /\ every (map g vs) = Ok l) <-> forall d, In d l -> exists v, f d = Ok v /\ g v = Ok d.
  Proof.
    split.
    - intros (vs & A & B). apply every_ok in A. apply every_ok in B. clear -A B. revert vs A B. induction l as [|x l IH]; intros vs A B d []; inversion A as [|? y ? q A1 A2]; subst; inversion B as [|? ? ? ? B1 B2]; subst; eauto.
    - intros H. induction l as [|x l IH]; [exists []; split; reflexivity|]. destruct (H x (or_introl eq_refl)) as (v & A & B). destruct IH as (vs & C & D); [intros d I; apply H; right; exact I|].
      exists (v :: vs). cbn [map every]. rewrite A, C. cbn [rbind]. rewrite B, D. split; reflexivity.
  Qed.
  Lemma map_trip (f : data -> res unit val) (g : val -> res unit data) t :
    (exists vs, every (map (fun kd : text * data => do v <- f (snd kd) ; Ok (fst kd, v)) t) = Ok vs /\ every (map (fun kv : text * val => do d <- g (snd kv) ; Ok (fst kv, d)) vs) = Ok t) <->
    forall k d, In (k, d) t -> exists v, f d = Ok v /\ g v = Ok d.
  Proof.
    split.
    - intros (vs & A & B). apply every_ok in A. apply every_ok in B. clear -A B. revert vs A B.
      induction t as [|[k0 d0] t IH]; intros vs A B k d []; inversion A as [|? y ? q A1 A2]; subst; inversion B as [|? ? ? ? B1 B2]; subst; [|eauto].
      injection H as -> ->. cbn [fst snd] in A1. destruct (f d) as [v| |]; cbn [rbind] in A1; try discriminate. injection A1 as <-. cbn [fst snd] in B1. destruct (g v) as [d'| |] eqn:G; cbn [rbind] in B1; try discriminate.
      injection B1 as ->. exists v. split; [reflexivity|exact G].
    - intros H. induction t as [|[k x] t IH]; [exists []; split; reflexivity|]. destruct (H k x (or_introl eq_refl)) as (v & A & B). destruct IH as (vs & C & D); [intros k1 d I; apply (H k1 d); right; exact I|].
      exists ((k, v) :: vs). cbn [map every fst snd]. rewrite A. cbn [rbind]. rewrite C. cbn [rbind fst snd]. rewrite B. cbn [rbind]. rewrite D. split; reflexivity.
  Qed.

  Theorem trip_exact s : wf s -> forall d, typed s d -> (trip s d <-> forall k x, inside s d k x -> survives k x).
  Proof.
    induction s as [k|s IH|s IH|s IH|s IH|fs IH] using schema_deep; intros W d T; inversion T; subst.
    - split.
      + intros (v & A & B) k' x' I. inversion I; subst. cbn [NtModel.dump] in A. destruct (show_one L (kind_of k) x') as [t| |] eqn:E; cbn [rbind] in A; try discriminate. injection A as <-.
        cbn [NtModel.load] in B. destruct (read_one L (kind_of k) t) as [y| |] eqn:F; cbn [rbind] in B; try discriminate. injection B as ->. exists t. split; assumption.
      + intros H. destruct (H _ _ (in_leaf k x)) as (t & A & B). change (type_of k) with (kind_of k) in A, B. exists (VOne t). cbn [NtModel.dump NtModel.load]. rewrite A. cbn [rbind]. rewrite B. split; reflexivity.
    - split; [intros _ k x I; inversion I; congruence|]. intros _. exists VNull. split; reflexivity.
    - match goal with H : d <> DNone |- _ => rename H into NN end. match goal with H : typed s d |- _ => rename H into TT end.
      inversion W as [|? WW| | | |]; subst. assert (E : trip (Opt s) d <-> trip s d).
      { assert (D : dump (Opt s) d = dump s d) by (destruct d; [congruence|reflexivity..]). unfold trip. rewrite D.
        split; intros (v & A & B); exists v; (split; [exact A|]); destruct v; try exact B; destruct (NN (dump_null _ _ A)). }
      rewrite E, (IH WW d TT). split; intros G k x I; [inversion I; subst; eauto|apply G; constructor; assumption].
    - inversion W; subst. assert (E : trip (Vec s) (DList l) <-> exists vs, every (map (dump s) l) = Ok vs /\ every (map (load s) vs) = Ok l).
      { unfold trip. cbn [NtModel.dump]. split.
        - intros (v & A & B). destruct (every (map (dump s) l)) as [vs| |]; cbn [rbind] in A; try discriminate. injection A as <-. cbn [NtModel.load] in B. exists vs. split; [reflexivity|].
          destruct (every (map (load s) vs)); cbn [rbind] in B; try discriminate. injection B as ->. reflexivity.
        - intros (vs & A & B). exists (VList vs). cbn [NtModel.load]. rewrite A, B. split; reflexivity. }
      rewrite E, vec_trip. split.
      + intros G k x I. inversion I; subst. refine (proj1 (IH _ d _) (G d _) k x _); auto.
      + intros G d I. refine (proj2 (IH _ d _) _); auto. intros k x J. apply G. econstructor; eassumption.
    - inversion W; subst. assert (E : trip (Map s) (DTab t) <-> exists vs, every (map (fun kd : text * data => do v <- dump s (snd kd) ; Ok (fst kd, v)) t) = Ok vs /\ every (map (fun kv : text * val => do d <- load s (snd kv) ; Ok (fst kv, d)) vs) = Ok t).
      { unfold trip. cbn [NtModel.dump]. split.
        - intros (v & A & B). destruct (every _) as [vs| |] eqn:EV; cbn [rbind] in A; try discriminate. injection A as <-. cbn [NtModel.load] in B. exists vs. split; [reflexivity|].
          match type of B with context [every ?e] => destruct (every e) end; cbn [rbind] in B; try discriminate. injection B as ->. reflexivity.
        - intros (vs & A & B). exists (VTab vs). cbn [NtModel.load]. rewrite A, B. split; reflexivity. }
      rewrite E, map_trip. split.
      + intros G k x I. inversion I; subst. refine (proj1 (IH _ d _) (G n d _) k x _); eauto.
      + intros G n d I. refine (proj2 (IH _ d _) _); eauto. intros k x J. apply G. econstructor; eassumption.
    - match goal with H : typed s (DTab t) |- _ => rename H into TT end.
      inversion W as [| | | |? WW|]; subst. assert (E : trip (TextOr s) (DTab t) <-> trip s (DTab t)).
      { unfold trip. split; intros (v & A & B); exists v; (split; [exact A|]); destruct (dump_tab _ _ _ A) as (t' & ->); exact B. }
      rewrite E, (IH WW _ TT). split; intros G k x I; [inversion I; subst; eauto|apply G; constructor; assumption].
    - match goal with H : map fst t = _ |- _ => rename H into NM end. match goal with H : forall k b s k' d, _ -> typed s d |- _ => rename H into TT end.
      inversion W as [| | | | |? ND WF]; subst.
      assert (SUB : forall k b s k' d, In ((k, (b, s)), (k', d)) (combine fs t) -> (trip s d <-> forall kk x, inside s d kk x -> survives kk x)).
      { intros k b s k' d I. pose proof (in_combine_l _ _ _ _ I) as I1. apply (IH k b s I1); [eapply WF; exact I1|eauto]. }
      split.
      + intros (v & A & B) kk x I. rewrite dump_struct in A. destruct (dumps fs t) as [vs| |] eqn:D; cbn [rbind] in A; try discriminate. injection A as <-. rewrite load_struct in B.
        destruct (loads vs fs) as [t'| |] eqn:Lo; cbn [rbind] in B; try discriminate. injection B as ->. inversion I as [| | | | |? ? n b s n' d ? ? J1 J2]; subst.
        refine (proj1 (SUB _ _ _ _ _ J1) _ kk x J2). refine (dumps_back fs t vs vs NM D _ Lo _ _ _ _ _ J1).
        apply assoc_lookup. assert (M : map fst vs = map fst fs); [|rewrite M; exact ND].
        clear -D NM. revert t vs D NM. induction fs as [|[k [b s]] fs IH]; intros [|[k' d] t] vs D E; cbn [dumps] in D; try discriminate; [injection D as <-; reflexivity|].
        destruct (dump s d); cbn [rbind] in D; try discriminate. destruct (dumps fs t) as [q| |] eqn:Q; cbn [rbind] in D; try discriminate. injection D as <-. cbn [map fst] in *. injection E as _ E. f_equal. exact (IH t q Q E).
      + intros G. destruct (dumps_trip fs t NM) as (vs & A & M & R).
        * intros k b s k' d I. apply (SUB k b s k' d I). intros kk x J. apply G. econstructor; eassumption.
        * exists (VTab vs). rewrite dump_struct, A, load_struct. split; [reflexivity|]. rewrite R; [reflexivity|]. apply assoc_lookup. rewrite M. exact ND.
  Qed.
End Trip.

Lemma no_char_of d t : ~ In d t -> no_char d t = true.
Proof.
  intros H. unfold no_char. apply forallb_forall. intros x I. destruct (N.eqb_spec x d) as [->|]; [contradiction|reflexivity].
Qed.
Lemma word_no_blank w : word w = true -> no_char 32 w = true.
Proof.
  intros H. apply no_char_of. intros I. destruct w as [|c w]; [discriminate|]. unfold word in H. rewrite forallb_forall in H. specialize (H 32 I). discriminate H.
Qed.
Lemma keeps_survives L k x : keeps L k x -> survives L k x.
Proof.
  unfold survives. destruct k, x; cbn [keeps]; intros H; try contradiction; cbn [show_one read_one].
  - exists s. split; reflexivity.
  - exists (show n). rewrite parse_show by exact H. split; reflexivity.
  - destruct b; eexists; (split; [reflexivity|vm_compute; reflexivity]).
  - destruct H as [A B]. destruct (proj2 (C26_durations_partial d A) B) as (t & T1 & T2). exists t. rewrite T2. split; [exact T1|reflexivity].
  - exists (show_rate L r). rewrite H. split; reflexivity.
  - destruct H as (A & B & C). exists (show_log l). rewrite (proj1 (C57_logs l (no_char_of _ _ A) (no_char_of _ _ B)) C). split; reflexivity.
  - destruct H as (A & B). assert (B' : no_char 32 (l_format l) = true) by (rewrite B; reflexivity). exists (show_log l).
    destruct (proj2 (C57_logs l (no_char_of _ _ A) B') B) as (l' & -> & E). split; [reflexivity|]. cbn [rbind]. rewrite E. reflexivity.
  - destruct H as (A & B & C). exists (show_lreq r). rewrite C54_limit_req; [split; reflexivity|apply word_no_blank, A|apply no_char_of, B|apply trim_no_ws, word_no_ws, A|exact C].
  - destruct H as (A & B & C & D & E). destruct (C54_zone_partial (default_rate L) z A B C D E) as (t & T1 & T2). exists t. rewrite T2. split; [exact T1|reflexivity].
  - eexists. split; [reflexivity|]. rewrite C23_text; [reflexivity|]. apply Forall_forall. rewrite Forall_forall in H. intros g I. exact (H g I).
  - exists (show_ip L a). rewrite (proj1 H). split; reflexivity.
  - exists (show_sa L a). rewrite (proj1 H). split; reflexivity.
  - exists (show_sa L a). destruct H as (A & B & C). unfold parse_one, parse_addr. rewrite C, A. split; reflexivity.
  - eexists. split; [reflexivity|]. destruct l as [|a l]; [reflexivity|]. rewrite C46_roundtrip; [reflexivity|discriminate|]. rewrite Forall_forall in H. exact H.
  - exists (show_url L u). rewrite H. split; reflexivity.
  - destruct H as (A & B & C & D). exists (show_header h). rewrite C55_header_rules_partial by assumption. split; reflexivity.
  - destruct H as [->|(m & -> & A & B)]; [eexists; split; reflexivity|]. eexists. split; [reflexivity|]. unfold show_set. cbn [flat_map]. rewrite app_nil_r.
    unfold parse_set. rewrite split_ws_one by exact A. cbn [parse_words]. rewrite B. reflexivity.
  - destruct H as [->|(m & -> & A & B)]; [eexists; split; reflexivity|]. eexists. split; [reflexivity|]. unfold show_set. cbn [flat_map]. rewrite app_nil_r.
    unfold parse_set. rewrite split_ws_one by exact A. cbn [parse_words]. rewrite B. reflexivity.
  - destruct H as (p & ->). exists p. split; [unfold show_rule; cbn [m_path m_host]; rewrite app_nil_r; reflexivity|reflexivity].
  - exists (show_flag b). split; [reflexivity|]. assert (M : b mod 8 = b) by (apply N.mod_small; lia). rewrite C45_kinds_partial; [rewrite M; reflexivity|lia|rewrite M; lia].
  - destruct l as [[]|]; eexists; (split; [reflexivity|vm_compute; reflexivity]).
Qed.
Lemma flag_lost b : b = 0 -> parse_flag (show_flag b) <> Ok b.
Proof. intros -> E. vm_compute in E. discriminate. Qed.
Lemma split_blank s : split_by_whitespace (32 :: s) = split_by_whitespace s.
Proof. reflexivity. Qed.
Lemma loses_not L k x : loses L k x -> ~ survives L k x.
Proof.
  unfold survives. destruct k, x; cbn [loses]; intros H; try contradiction; cbn [show_one read_one]; intros (t & T1 & T2).
  - destruct H as [A B]. apply B. split; [exact A|]. apply C26_durations_partial; [exact A|]. exists t. split; [exact T1|]. destruct (parse_dur t) as [d'| |]; cbn [rbind] in T2; try discriminate. injection T2 as ->. reflexivity.
  - destruct H as [A B]. injection T1 as <-. unfold show_log in T2. rewrite B in T2. unfold parse_log in T2. cbn [app] in T2. rewrite (split_on_app 32) in T2 by apply no_char_of, A.
    assert (N : no_char 32 (show_level (l_level l)) = true) by (destruct (l_level l); reflexivity). rewrite (split_on_one 32) in T2 by exact N. cbn [rbind] in T2. injection T2 as T2. rewrite <- T2 in B. destruct (l_level l); discriminate B.
  - injection T1 as <-. destruct h as [o p kk v]. cbn [ch_key ch_val ch_oper ch_proxy] in H. destruct H as (A & [[B ->]|(-> & B & a & b & -> & C & D)]).
    + destruct p; cbn [show_header ch_proxy ch_oper ch_key ch_val] in T2.
      * assert (LN : line [txt "proxy"; kk; v] (txt "proxy " ++ kk ++ [32] ++ v)).
        { change (txt "proxy " ++ kk ++ [32] ++ v) with (txt "proxy" ++ [32] ++ (kk ++ [32] ++ v)). apply line_more; [left; split; reflexivity|discriminate|repeat constructor|].
          apply line_more; [left; split; [reflexivity|exact A]|discriminate|repeat constructor|]. apply line_one. left. split; [reflexivity|exact B]. }
        rewrite (parse_line _ _ LN) in T2. cbn [leqb] in T2. change (leqb (txt "proxy") (txt "proxy")) with true in T2. cbn [rbind] in T2. discriminate T2.
      * assert (LN : line [kk; v] (kk ++ [32] ++ v)).
        { apply line_more; [left; split; [reflexivity|exact A]|discriminate|repeat constructor|]. apply line_one. left. split; [reflexivity|exact B]. }
        rewrite (parse_line _ _ LN) in T2. destruct (leqb kk [45]); cbn [rbind] in T2; discriminate T2.
    + assert (LN : line [kk; a; b] (kk ++ [32] ++ a ++ [32] ++ b)).
      { apply line_more; [left; split; [reflexivity|exact A]|discriminate|repeat constructor|]. apply line_more; [left; split; [reflexivity|exact C]|discriminate|repeat constructor|]. apply line_one. left. split; [reflexivity|exact D]. }
      destruct B as [-> | ->]; cbn [show_header ch_proxy ch_oper ch_key ch_val show_oper] in T2.
      * assert (L4 : line [[43]; kk; a; b] ([43] ++ [32] ++ kk ++ [32] ++ a ++ 32 :: b)).
        { apply line_more; [left; split; reflexivity|discriminate|repeat constructor|exact LN]. }
        rewrite (parse_line _ _ L4) in T2. change (leqb [43] (txt "proxy")) with false in T2. cbn [rbind] in T2. discriminate T2.
      * pose proof (parse_line _ _ LN) as PL. change ([] ++ [32] ++ kk ++ [32] ++ a ++ 32 :: b) with (32 :: (kk ++ [32] ++ a ++ [32] ++ b)) in T2.
        unfold parse_header in T2. rewrite split_blank in T2. rewrite (proj1 (split_line _ _ LN)) in T2.
        destruct (leqb kk (txt "proxy")); cbn [rbind] in T2; [discriminate T2|]. injection T2 as _ _ E. apply (f_equal (@List.length N)) in E. rewrite app_length in E. cbn [List.length] in E. lia.
  - destruct H as [A (sw & B & C & D)]. injection T1 as <-. injection T2 as T2. exact (proj2 (C139_shown_refuted (status_ok L) (show_status L) y sw A B C D) T2).
  - destruct H as [A B]. injection T1 as <-. destruct (parse_set (parse_method L) leqb (show_set (show_method L) l)) as [l'|] eqn:E; cbn [some rbind] in T2; [|discriminate]. injection T2 as ->.
    pose proof (C138_more_refuted (parse_method L) (show_method L) leqb B l l A E). lia.
  - destruct H as [A B]. injection T1 as <-. destruct (parse_set (parse_scheme L) leqb (show_set (show_scheme L) l)) as [l'|] eqn:E; cbn [some rbind] in T2; [|discriminate]. injection T2 as ->.
    pose proof (C138_more_refuted (parse_scheme L) (show_scheme L) leqb B l l A E). lia.
  - injection T1 as <-. destruct (parse_flag (show_flag b)) as [b'| |] eqn:E; cbn [rbind] in T2; try discriminate. injection T2 as ->. exact (flag_lost b H E).
Qed.

(* what has been read is of its type *)
Lemma read_kind L k t x : read_one L k t = Ok x -> of_kind k x.
Proof.
  destruct k; cbn [read_one of_kind]; intros H;
    repeat match type of H with context [if ?b then _ else _] => destruct b end;
    repeat match type of H with rbind ?r _ = _ => destruct r; cbn [rbind] in H end; try discriminate; injection H as <-; exact I.
Qed.
