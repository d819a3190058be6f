(* C174: the configuration shown by /now, as a configuration file. *)
From Coq Require Import String Lia.
From Verif Require Import Base Text TextOps AddrModel AddrSpec Ipv4Text ConfModel ConfSpec RouteModel RwModel RwSpec FmModel FmSpec FmProps NtModel NtSpec NtProofs.
Open Scope N_scope.

Section Loaded.
  Context (L : lib) (dflt : text -> schema -> data).
  Lemma load_none s : forall v, load L dflt s v = Ok DNone -> v = VNull.
  Proof.
    induction s as [k|s IH|s IH|s IH|s IH|fs IH] using schema_deep; intros v H.
    - cbn [load] in H. destruct v; try discriminate. destruct (read_one _ _ _); discriminate.
    - destruct v; [reflexivity|..]; exact (IH _ H).
    - cbn [load] in H. destruct v; try discriminate. destruct (every _); discriminate.
    - cbn [load] in H. destruct v; try discriminate. destruct (every _); discriminate.
    - cbn [load] in H. destruct v; try discriminate; exact (IH _ H).
    - destruct v; try discriminate. rewrite load_struct in H. destruct (loads _ _ _ _); discriminate.
  Qed.
  Lemma load_typed s : ors s -> (forall k s', ors s' -> typed s' (dflt k s')) -> forall v d, load L dflt s v = Ok d -> typed s d.
  Proof.
    intros O D. induction s as [k|s IH|s IH|s IH|s IH|fs IH] using schema_deep; intros v d H; inversion O; subst.
    - cbn [load] in H. destruct v; try discriminate. destruct (read_one L (kind_of k) s) as [x| |] eqn:E; cbn [rbind] in H; try discriminate. injection H as <-. constructor. eapply read_kind, E.
    - destruct v; [injection H as <-; constructor|..]; (constructor; [intros ->; apply load_none in H; discriminate|eapply IH; eassumption]).
    - cbn [load] in H. destruct v; try discriminate. destruct (every _) as [ds| |] eqn:E; cbn [rbind] in H; try discriminate. injection H as <-. apply every_ok in E. constructor. intros d I.
      clear -IH E I H1. induction E as [|x y l r E1 E2 IHE]; [destruct I|]. destruct I as [<-|I]; [exact (IH H1 _ _ E1)|exact (IHE I)].
    - cbn [load] in H. destruct v; try discriminate. destruct (every _) as [ds| |] eqn:E; cbn [rbind] in H; try discriminate. injection H as <-. apply every_ok in E. constructor. intros k d I.
      clear -IH E I H1. induction E as [|x y l r E1 E2 IHE]; [destruct I|]. destruct I as [->|I]; [|exact (IHE I)]. destruct (load L dflt s (snd x)) as [z| |] eqn:Z; cbn [rbind] in E1; try discriminate. injection E1 as _ <-. exact (IH H1 _ _ Z).
    - cbn [load] in H. destruct v; try discriminate.
      + injection H as <-. constructor. constructor; [reflexivity|]. intros k b s0 k' d I. cbn [combine In] in I.
        destruct I as [I|[I|[I|[I|[I|[I|I]]]]]]; [injection I as <- <- <- <- <-|injection I as <- <- <- <- <-|injection I as <- <- <- <- <-|injection I as <- <- <- <- <-|injection I as <- <- <- <- <-|injection I as <- <- <- <- <-|destruct I]; constructor; [discriminate|constructor; exact Logic.I].
      + match goal with O1 : ors FmModel.matcher |- _ => pose proof (IH O1 _ _ H) as G end. change (load L dflt FmModel.matcher (VTab t) = Ok d) in H. unfold FmModel.matcher in H at 1. rewrite load_struct in H. destruct (loads _ _ _ _) as [ds| |]; cbn [rbind] in H; try discriminate. injection H as <-. constructor. exact G.
    - destruct v; try discriminate. rewrite load_struct in H. destruct (loads L dflt t fs) as [ds| |] eqn:E; cbn [rbind] in H; try discriminate. injection H as <-.
      assert (G : map fst ds = map fst fs /\ forall k b s k' d, In ((k, (b, s)), (k', d)) (combine fs ds) -> typed s d).
      { clear O. revert ds E IH H1. induction fs as [|[k [b s]] fs IHf]; intros ds E IH O; [injection E as <-; split; [reflexivity|intros ? ? ? ? ? []]|]. cbn [loads] in E.
        assert (R : exists d r, loads L dflt t fs = Ok r /\ ds = (k, d) :: r /\ typed s d).
        { destruct (lookup leqb k t) as [x|].
          - destruct (load L dflt s x) as [d| |] eqn:Ld; cbn [rbind] in E; try discriminate. destruct (loads L dflt t fs) as [r| |]; cbn [rbind] in E; try discriminate. injection E as <-. exists d, r. split; [reflexivity|]. split; [reflexivity|].
            refine (IH k b s (or_introl eq_refl) _ _ _ Ld). apply (O k b s). left. reflexivity.
          - destruct b; [discriminate|]. destruct (loads L dflt t fs) as [r| |]; cbn [rbind] in E; try discriminate. injection E as <-. exists (dflt k s), r. split; [reflexivity|]. split; [reflexivity|]. apply D. apply (O k false s). left. reflexivity. }
        destruct R as (d & r & R1 & -> & R3). destruct (IHf r R1) as [G1 G2]; [intros k0 b0 s0 I; apply (IH k0 b0 s0); right; exact I|intros k0 b0 s0 I; apply (O k0 b0 s0); right; exact I|].
        split; [cbn [map fst]; f_equal; exact G1|]. intros k0 b0 s0 k1 d1 [I|I]; [injection I as <- <- <- <- <-; exact R3|exact (G2 _ _ _ _ _ I)]. }
      constructor; [apply G|apply G].
  Qed.
End Loaded.
Ltac no_or := repeat first [apply ors_leaf | apply ors_opt | apply ors_vec | apply ors_map | apply ors_or | (apply ors_struct; let k := fresh in let b := fresh in let s := fresh in let I := fresh in intros k b s I; repeat (destruct I as [I|I]; [injection I as <- <- <-|]); [..|destruct I])].
Lemma ors_config : ors config.
Proof. unfold config, proxy, mapping, http, stream, server, server_with, location, file_server, upstream, common_fields, common_with, must, may, opt, def, app. no_or. Qed.

(* What is read from a file is a configuration. *)
Theorem C174_loaded : forall L dflt v d, (forall k s, ors s -> typed s (dflt k s)) -> load L dflt config v = Ok d -> typed config d.
Proof. intros L dflt v d D H. eapply load_typed; [exact ors_config|exact D|exact H]. Qed.
(* A configuration that is shown and read again is the same configuration exactly if every single value of it is: nothing
   else, no field, list, map or missing setting, is lost. *)
(* a rule written as a text is the rule with that path and nothing else *)
Theorem C174_rule : forall L dflt t, (forall k s, dflt k (Opt s) = DNone) ->
  load L dflt (TextOr matcher) (VOne t) = load L dflt (TextOr matcher) (VTab [(txt "path", VOne t)]).
Proof.
  intros L dflt t D. unfold matcher, opt, may. cbn [load fst snd].
  repeat match goal with |- context [lookup leqb ?k ?l] => let r := eval vm_compute in (match lookup leqb k l with Some _ => true | None => false end) in
    lazymatch r with true => change (lookup leqb k l) with (Some (VOne t)) | false => change (lookup leqb k l) with (@None val) end end.
  cbn [load rbind]. rewrite !D. reflexivity.
Qed.
(* Each single value of a file (alone, in a list, or in a table of names) is in the configuration, at the same place, as
   the value its text has as what the setting is. *)
Section Values.
  Context (L : lib) (dflt : text -> schema -> data).
  Lemma loads_field t : forall fs ds, loads L dflt t fs = Ok ds -> forall k m s x, lookup leqb k fs = Some (m, s) -> lookup leqb k t = Some x ->
    exists d, load L dflt s x = Ok d /\ lookup leqb k ds = Some d.
  Proof.
    induction fs as [|[k1 [m1 s1]] fs IH]; intros ds H k m s x F X; [discriminate|]. cbn [loads] in H. cbn [lookup] in F. destruct (leqb k k1) eqn:E.
    - injection F as -> ->. apply leqb_ok in E as E'. subst k1. rewrite X in H. destruct (load L dflt s x) as [d| |] eqn:Ld; cbn [rbind] in H; try discriminate. destruct (loads L dflt t fs) as [r| |]; cbn [rbind] in H; try discriminate.
      injection H as <-. exists d. split; [reflexivity|]. cbn [lookup]. rewrite E. reflexivity.
    - destruct (lookup leqb k1 t) as [x1|].
      + destruct (load L dflt s1 x1) as [d1| |]; cbn [rbind] in H; try discriminate. destruct (loads L dflt t fs) as [r| |] eqn:R; cbn [rbind] in H; try discriminate. injection H as <-.
        destruct (IH r eq_refl k m s x F X) as (d & A & B). exists d. split; [exact A|]. cbn [lookup]. rewrite E. exact B.
      + destruct m1; [discriminate|]. destruct (loads L dflt t fs) as [r| |] eqn:R; cbn [rbind] in H; try discriminate. injection H as <-.
        destruct (IH r eq_refl k m s x F X) as (d & A & B). exists d. split; [exact A|]. cbn [lookup]. rewrite E. exact B.
  Qed.
  Lemma load_reach fs t : forall p s v d, load L dflt s v = Ok d -> sub v p = Some (VTab t) -> (exists x, names_walk s (way p) = Some x /\ strip x = Struct fs) ->
    exists ds, dsub d p = Some (DTab ds) /\ loads L dflt t fs = Ok ds.
  Proof.
    induction p as [|[k|i] p IH]; intros s; induction s as [k0|s IHs|s IHs|s IHs|s IHs|fs0 _] using schema_deep; intros v d H S0 (x & W & F).
    all: try (cbn [way flat_map app names_walk] in W; injection W as <-; cbn [strip] in F; discriminate).
    all: try (cbn [way flat_map app names_walk strip] in W; discriminate).
    - injection S0 as ->. cbn [load] in H. injection W as <-. apply (IHs (VTab t) d H eq_refl). exists s. split; [reflexivity|exact F].
    - injection S0 as ->. discriminate.
    - injection S0 as ->. cbn [load] in H. injection W as <-. apply (IHs (VTab t) d H eq_refl). exists s. split; [reflexivity|exact F].
    - injection S0 as ->. injection W as <-. cbn [strip] in F. injection F as <-. rewrite load_struct in H. destruct (loads L dflt t fs0) as [q| |]; cbn [rbind] in H; try discriminate.
      injection H as <-. exists q. split; reflexivity.
    - destruct v as [| | |tt]; try discriminate. cbn [load] in H. apply (IHs (VTab tt) d H S0). exists x. split; [exact W|exact F].
    - destruct v as [| | |tt]; try discriminate.
    - destruct v as [| | |tt]; try discriminate. cbn [load] in H. apply (IHs (VTab tt) d H S0). exists x. split; [exact W|exact F].
    - destruct v as [| | |tt]; try discriminate. cbn [sub] in S0. destruct (lookup leqb k tt) as [y|] eqn:Lk; [|discriminate].
      cbn [way flat_map app names_walk strip] in W. destruct (lookup leqb k fs0) as [[m s1]|] eqn:Lf; [|discriminate].
      rewrite load_struct in H. destruct (loads L dflt tt fs0) as [q| |] eqn:E; cbn [rbind] in H; try discriminate. injection H as <-.
      destruct (loads_field tt fs0 q E k m s1 y Lf Lk) as (z & Z & Q). cbn [dsub]. rewrite Q. apply (IH s1 y z Z S0). exists x. split; [exact W|exact F].
    - change (way (At i :: p)) with (way p) in W. destruct (way p); cbn [names_walk strip] in W; [injection W as <-|]; discriminate.
    - destruct v as [| |l|]; try discriminate. cbn [load] in H. apply (IHs (VList l) d H S0). apply (strip_walk (Opt s)); [reflexivity|]. eexists. split; [exact W|exact F].
    - destruct v as [| |l|]; try discriminate. cbn [sub] in S0. destruct (nth_error l i) as [y|] eqn:Ln; [|discriminate]. cbn [load] in H.
      destruct (every (map (load L dflt s) l)) as [q| |] eqn:E; cbn [rbind] in H; try discriminate. injection H as <-. apply every_ok in E. destruct (nth_pair _ _ _ E i) as (A & _).
      destruct (A y Ln) as (z & Z & Nz). cbn [dsub]. rewrite Nz. apply (IH s y z Z S0). apply (strip_walk (Vec s)); [reflexivity|]. eexists. split; [exact W|exact F].
    - destruct v as [| |l|]; try discriminate.
    - destruct v as [| |l|]; try discriminate. cbn [load] in H. apply (IHs (VList l) d H S0). apply (strip_walk (TextOr s)); [reflexivity|]. eexists. split; [exact W|exact F].
    - destruct v as [| |l|]; try discriminate.
  Qed.
End Values.
Lemma sub_app v p : forall q, sub v (p ++ q) = match sub v p with Some x => sub x q | None => None end.
Proof. revert v. induction p as [|[k|i] p IH]; intros v q; [reflexivity|..]; cbn [app sub]; destruct v; try reflexivity; [destruct (lookup leqb k t)|destruct (nth_error l i)]; auto. Qed.
Lemma dsub_app d p : forall q, dsub d (p ++ q) = match dsub d p with Some x => dsub x q | None => None end.
Proof. revert d. induction p as [|[k|i] p IH]; intros d q; [reflexivity|..]; cbn [app dsub]; destruct d; try reflexivity; [destruct (lookup leqb k t)|destruct (nth_error l i)]; auto. Qed.
Definition kind_dec (a b : kind) : {a = b} + {a <> b}. Proof. decide equality. apply N.eq_dec. Defined.
Definition is_kind (a b : kind) : bool := if kind_dec a b then true else false.
(* the type of a field is that of its setting *)
Definition settles (w : list string) (k : string) (s : schema) : bool :=
  match s with
  | Leaf l | Opt (Leaf l) | Vec (Leaf l) => is_kind (kind_of l) (setting w k)
  | Map (Leaf l) => is_kind (kind_of l) (setting w k) && holds_table k
  | Struct _ => negb (holds_table k) || String.eqb k "comm"
  | Opt (Struct _) | Vec (Struct _) => negb (holds_table k)
  | TextOr (Struct _) => String.eqb k "rule"
  | _ => false
  end.
Theorem C174_values : forall L dflt v d p w ks k rest t, load L dflt config v = Ok d -> way p = map txt w -> In (w, ks) file_keys -> In k ks -> k <> "rule"%string ->
  (rest = [] \/ (exists i, rest = [At i]) \/ exists n, rest = [Key n] /\ holds_table k = true /\ k <> "comm"%string) ->
  sub v (p ++ Key (txt k) :: rest) = Some (VOne t) ->
  exists x, dsub d (p ++ Key (txt k) :: rest) = Some (DOne x) /\ read_one L (setting w k) t = Ok x.
Proof.
  intros L dflt v d p w ks k rest t H E I1 I2 NR R S0.
  assert (C : forallb (fun y => match names_walk config (map txt (fst y)) with Some x => match strip x with Struct fs =>
             forallb (fun k => match lookup leqb (txt k) fs with Some f => settles (fst y) k (snd f) | None => false end) (snd y) | _ => false end | None => false end) file_keys = true)
    by (vm_compute; reflexivity).
  rewrite forallb_forall in C. specialize (C _ I1). cbv beta in C. cbn [fst snd] in C.
  match type of C with match ?z with _ => _ end = _ => destruct z as [sx|] eqn:Ew; [|discriminate] end. destruct (strip sx) as [| | | | |fs] eqn:F; try discriminate.
  rewrite forallb_forall in C. specialize (C _ I2). destruct (lookup leqb (txt k) fs) as [[m s]|] eqn:Lf; [|discriminate]. cbn [snd] in C.
  rewrite sub_app in S0. destruct (sub v p) as [y|] eqn:Sp; [|discriminate]. cbn [sub] in S0. destruct y as [| | |tab]; try discriminate. destruct (lookup leqb (txt k) tab) as [z|] eqn:Lt; [|discriminate].
  destruct (load_reach L dflt fs tab p config v d H Sp) as (ds & D & Ls); [exists sx; rewrite E; split; [exact Ew|exact F]|].
  destruct (loads_field L dflt tab fs ds Ls (txt k) m s z Lf Lt) as (e & Le & De).
  rewrite dsub_app, D. cbn [dsub]. rewrite De.
  assert (ONE : forall l u e', is_kind (kind_of l) (setting w k) = true -> load L dflt (Leaf l) (VOne u) = Ok e' -> exists x, e' = DOne x /\ read_one L (setting w k) u = Ok x).
  { intros l u e' K Q. unfold is_kind in K. destruct (kind_dec (kind_of l) (setting w k)) as [K'|]; [|discriminate]. cbn [load] in Q. rewrite K' in Q. destruct (read_one L (setting w k) u) as [x| |]; cbn [rbind] in Q; try discriminate. injection Q as <-. eauto. }
  assert (RE : forall l, is_kind (kind_of l) (setting w k) = true -> load L dflt (Leaf l) z = Ok e -> exists x, dsub e rest = Some (DOne x) /\ read_one L (setting w k) t = Ok x).
  { intros l K Q. destruct z as [|u| |]; try discriminate. destruct R as [->|[(i & ->)|(n & -> & _)]]; try discriminate. injection S0 as ->. destruct (ONE l t e K Q) as (x & -> & X). exists x. split; [reflexivity|exact X]. }
  destruct s as [l|s|s|s|s|fs1]; cbn [settles] in C.
  - exact (RE l C Le).
  - destruct s as [l| | | | |fs1]; try discriminate.
    + destruct z as [|u| |]; cbn [load] in Le; try discriminate.
      * destruct R as [->|[(i & ->)|(n & -> & _)]]; discriminate.
      * exact (RE l C Le).
    + destruct z as [|u|u|u]; try discriminate; destruct R as [->|[(i & ->)|(n & -> & HT & _)]]; try discriminate. rewrite HT in C. discriminate.
  - destruct s as [l| | | | |fs1]; try discriminate.
    + destruct z as [| |us|]; try discriminate. destruct R as [->|[(i & ->)|(n & -> & _)]]; try discriminate. cbn [sub] in S0. destruct (nth_error us i) as [u|] eqn:Nu; [|discriminate]. injection S0 as ->.
      cbn [load] in Le. destruct (every _) as [q| |] eqn:Ev; cbn [rbind] in Le; try discriminate. injection Le as <-. apply every_ok in Ev. destruct (nth_pair _ _ _ Ev i) as (A & _).
      destruct (A _ Nu) as (e1 & Le1 & Ne). cbn [dsub]. rewrite Ne. destruct (ONE l t e1 C Le1) as (x & -> & X). exists x. split; [reflexivity|exact X].
    + destruct z as [| |us|]; try discriminate. destruct R as [->|[(i & ->)|(n & -> & _)]]; try discriminate. cbn [sub] in S0. destruct (nth_error us i) as [u|] eqn:Nu; [|discriminate]. injection S0 as ->.
      cbn [load] in Le. destruct (every _) as [q| |] eqn:Ev; cbn [rbind] in Le; try discriminate. apply every_ok in Ev. destruct (nth_pair _ _ _ Ev i) as (A & _). destruct (A _ Nu) as (e1 & Le1 & _). discriminate.
  - destruct s as [l| | | | |fs1]; try discriminate. apply andb_prop in C as [C _].
    destruct z as [| | |tt]; try discriminate. destruct R as [->|[(i & ->)|(n & -> & _)]]; try discriminate. cbn [sub] in S0. destruct (lookup leqb n tt) as [u|] eqn:Nu; [|discriminate]. injection S0 as ->.
    cbn [load] in Le. destruct (every _) as [q| |] eqn:Ev; cbn [rbind] in Le; try discriminate. injection Le as <-. apply every_ok in Ev. cbn [dsub].
    assert (G : exists e1, lookup leqb n q = Some e1 /\ load L dflt (Leaf l) (VOne t) = Ok e1).
    { clear -Ev Nu. induction Ev as [|[n1 v1] [n2 e2] tt q E1 E2 IH]; [discriminate|]. change (rbind (load L dflt (Leaf l) v1) (fun d => Ok (n1, d)) = Ok (n2, e2)) in E1. destruct (load L dflt (Leaf l) v1) as [e1| |] eqn:L1; cbn [rbind] in E1; try discriminate. injection E1 as <- <-.
      cbn [lookup] in *. destruct (leqb n n1); [injection Nu as ->; eauto|apply IH, Nu]. }
    destruct G as (e1 & -> & Le1). destruct (ONE l t e1 C Le1) as (x & -> & X). exists x. split; [reflexivity|exact X].
  - destruct s as [| | | | |fs1]; try discriminate. apply String.eqb_eq in C. congruence.
  - destruct z as [| | |tt]; try discriminate. destruct R as [->|[(i & ->)|(n & -> & HT & NC)]]; try discriminate. rewrite HT in C. cbn [negb orb] in C. apply String.eqb_eq in C. congruence.
Qed.
Theorem C174_exact_partial : forall L dflt d, typed config d ->
  ((exists v, dump L config d = Ok v /\ load L dflt config v = Ok d) <->
   (forall k x, inside config d k x -> exists t, show_one L k x = Ok t /\ read_one L k t = Ok x)).
Proof. intros L dflt d T. exact (trip_exact L dflt config config_wf d T). Qed.
(* So a configuration with the values of keeps can be shown and read again. *)
Theorem C174_shown_partial : forall L dflt d, typed config d -> (forall k x, inside config d k x -> keeps L k x) ->
  exists v, dump L config d = Ok v /\ load L dflt config v = Ok d.
Proof. intros L dflt d T K. apply C174_exact_partial; [exact T|]. intros k x I. exact (keeps_survives L k x (K k x I)). Qed.
(* False of the code: with one of the values of loses what is shown is not accepted, or is another configuration. *)
Theorem C174_lost_refuted : forall L dflt d k x, typed config d -> inside config d k x -> loses L k x ->
  ~ exists v, dump L config d = Ok v /\ load L dflt config v = Ok d.
Proof. intros L dflt d k x T I H E. rewrite (C174_exact_partial L dflt d T) in E. exact (loses_not L k x H (E k x I)). Qed.

(* The hypotheses are met.  The single values of a configuration as a list, and a configuration that is read from a file. *)
Fixpoint singles (s : schema) (d : data) : list (kind * one) :=
  match s with
  | Leaf k => match d with DOne x => [(kind_of k, x)] | _ => [] end
  | Opt s' => match d with DNone => [] | _ => singles s' d end
  | Vec s' => match d with DList l => flat_map (singles s') l | _ => [] end
  | Map s' => match d with DTab t => flat_map (fun kd => singles s' (snd kd)) t | _ => [] end
  | TextOr s' => singles s' d
  | Struct fs => match d with DTab t => (fix go (fs : list (text * (bool * schema))) (t : list (text * data)) : list (kind * one) := match fs, t with (_, (_, s')) :: fs', (_, d') :: t' => singles s' d' ++ go fs' t' | _, _ => [] end) fs t | _ => [] end
  end.
Lemma singles_inside s : forall d k x, In (k, x) (singles s d) <-> inside s d k x.
Proof.
  induction s as [k0|s IH|s IH|s IH|s IH|fs IH] using schema_deep; intros d k x; cbn [singles]; split; intros H.
  - destruct d as [|x0|l|t]; [destruct H| |destruct H|destruct H]. destruct H as [H|[]]. injection H as <- <-. constructor.
  - inversion H; subst. left. reflexivity.
  - destruct d; [destruct H|..]; (constructor; [discriminate|apply IH, H]).
  - inversion H; subst. destruct d; [congruence|..]; (apply IH; assumption).
  - destruct d as [|x0|l|t]; [destruct H|destruct H| |destruct H]. apply in_flat_map in H as (d & I & H). econstructor; [exact I|apply IH, H].
  - inversion H; subst. apply in_flat_map. exists d0. split; [assumption|apply IH; assumption].
  - destruct d as [|x0|l|t]; [destruct H|destruct H|destruct H|]. apply in_flat_map in H as ([n d] & I & H). econstructor; [exact I|apply IH, H].
  - inversion H; subst. apply in_flat_map. exists (n, d0). split; [assumption|apply IH; assumption].
  - constructor. apply IH, H.
  - inversion H; subst. apply IH. assumption.
  - destruct d as [|x0|l|t]; [destruct H|destruct H|destruct H|].
    assert (G : exists n b s n' d, In ((n, (b, s)), (n', d)) (combine fs t) /\ inside s d k x).
    { revert t H IH. induction fs as [|[n [b s]] fs IHf]; intros [|[n' d] t] H IH; [destruct H|destruct H|destruct H|]. apply in_app_or in H as [H|H].
      - exists n, b, s, n', d. split; [left; reflexivity|]. apply (IH n b s (or_introl eq_refl)). exact H.
      - destruct (IHf t H) as (m & b1 & s1 & m' & d1 & I & J); [intros k1 b1 s1 I; apply (IH k1 b1 s1); right; exact I|]. exists m, b1, s1, m', d1. split; [right; exact I|exact J]. }
    destruct G as (n & b & s & n' & d & I & J). econstructor; [exact I|exact J].
  - inversion H as [| | | | |? t n b s n' d0 ? ? I J]; subst. clear H. revert t I. induction fs as [|[n1 [b1 s1]] fs IHf]; intros [|[n2 d2] t] I; [destruct I|destruct I|destruct I|]. destruct I as [I|I]; apply in_or_app.
    + injection I as -> -> -> -> ->. left. apply (IH n b s (or_introl eq_refl)). exact J.
    + right. apply IHf; [|assumption]. intros k1 b2 s2 I1. apply (IH k1 b2 s2). right. exact I1.
Qed.
(* a default of every type *)
Definition blank_one (k : kind) : one :=
  match k with
  | KText => OText [] | KNum _ => ONum 0 | KBool => OBool false | KDur => ODur 0 | KRate => ORate (0, 0) | KLog | KErrorLog => OLog (CLog [] [] LTrace) | KLimit => OLimit (LReq [] 0)
  | KZone => OZone (LZone [] 0 0 0) | KIps => OIps [] | KIp => OIp (V4 0) | KAddr | KWrap => OAddr (SAddr (V4 2130706433) 8837) | KAddrs => OAddrs [] | KUrl => OUrl [] | KHeader => OHead (CHeader OAdd false [] [])
  | KTries => OTries (Tries [] 404) | KMethods | KSchemes => OSet [] | KRule => ORule (rule_of []) | KFlag => OFlag 7 | KLevel => OLevel None
  end.
Fixpoint blank (s : schema) : data :=
  match s with
  | Leaf k => DOne (blank_one (kind_of k))
  | Opt _ => DNone | Vec _ => DList [] | Map _ => DTab []
  | TextOr s' => match blank s' with DTab t => DTab t | _ => DTab [] end
  | Struct fs => DTab ((fix go (fs : list (text * (bool * schema))) : list (text * data) := match fs with [] => [] | (k, (_, s')) :: fs' => (k, blank s') :: go fs' end) fs)
  end.
(* IPv4 addresses as std writes them *)
Definition demo_lib : lib :=
  Lib (fun s => option_map V4 (parse_v4 s)) (fun a => match a with V4 n => show_v4 n | V6 _ => [] end) parse_sa4 show_sa4 None None (fun _ => []) (0, 0)
    (fun s => Some s) (fun s => s) (fun s => Some s) (fun s => s) (fun s => Some s) (fun s => s) (fun n => (100 <=? n) && (n <? 1000)) show.
Definition demo_file (time head : text) (rest : list (text * val)) : val :=
  VTab [(txt "http", VTab [(txt "max_read_buf", VOne (txt "1024")); (txt "error_log", VOne (txt "error warn")); (txt "client_timeout", VOne time); (txt "match_names", VTab [(txt "a", VOne (txt "/a/*"))]);
    (txt "server", VList [VTab [(txt "bind_addr", VOne (txt "127.0.0.1:80,127.0.0.1:81")); (txt "bind_ssl", VOne []);
      (txt "headers", VList [VOne head]); (txt "allow_ip", VOne (txt "10.0.0.0/8"));
      (txt "location", VList [VTab ((txt "rule", VOne (txt "@a")) :: rest)])]])])].
Definition demo (v : val) : data := match load demo_lib (fun _ => blank) config v with Ok d => d | _ => DNone end.
Lemma blank_typed s : ors s -> typed s (blank s).
Proof.
  induction s as [k|s IH|s IH|s IH|s IH|fs IH] using schema_deep; intros O; cbn [blank]; inversion O; subst.
  - constructor. change (type_of k) with (kind_of k). destruct (kind_of k); exact I.
  - constructor.
  - constructor. intros d [].
  - constructor. intros k d [].
  - constructor. apply IH. assumption.
  - constructor.
    + clear. induction fs as [|[k [b s]] fs IHf]; [reflexivity|]. cbn [map fst]. f_equal. exact IHf.
    + clear O. revert IH H0. induction fs as [|[k0 [b0 s0]] fs IHf]; intros IH O k b s k' d I; [destruct I|]. destruct I as [I|I].
      * injection I as <- <- <- <- <-. apply (IH k0 b0 s0 (or_introl eq_refl)). apply (O k0 b0 s0). left. reflexivity.
      * refine (IHf _ _ k b s k' d I); [intros k1 b1 s1 I1; apply (IH k1 b1 s1); right; exact I1|intros k1 b1 s1 I1; apply (O k1 b1 s1); right; exact I1].
Qed.
Definition demo_good : data := demo (demo_file (txt "10s") (txt "proxy + via wm") []).
Example C174_demo : typed config demo_good /\ (forall k x, inside config demo_good k x -> keeps demo_lib k x) /\ length (singles config demo_good) = 16%nat.
Proof.
  split; [|split; [|vm_compute; reflexivity]].
  - apply (C174_loaded demo_lib (fun _ => blank) (demo_file (txt "10s") (txt "proxy + via wm") [])); [intros k s O; apply blank_typed, O|]. vm_compute. reflexivity.
  - intros k x I. apply singles_inside in I. vm_compute in I.
    assert (SA : forall p, p <= u16_max -> good_sa demo_lib (SAddr (V4 2130706433) p)).
    { intros p H. split; [apply (sa4_roundtrip 2130706433 p); [reflexivity|exact H]|]. apply sa4_clean. }
    repeat (destruct I as [I|I]; [injection I as <- <-; cbn [keeps]|]); [..|destruct I]; try exact Logic.I.
    + constructor; [apply SA; discriminate|]. constructor; [apply SA; discriminate|constructor].
    + constructor.
    + split; [reflexivity|]. split; [left; reflexivity|]. split; discriminate.
    + constructor; [|constructor]. split; [split; [|split]; vm_compute; reflexivity|discriminate].
    + discriminate.
    + split; [discriminate|left; reflexivity].
    + split; [|reflexivity]. cbn. intuition discriminate.
    + eexists. reflexivity.
    + apply SA. discriminate.
Qed.
(* configurations read from a file that do not survive: a time in milliseconds beyond 4294ms, a default header rule, a
   value of two words, try_paths *)
Lemma demo_typed v : load demo_lib (fun _ => blank) config v = Ok (demo v) -> typed config (demo v).
Proof. apply C174_loaded. intros k s O. apply blank_typed, O. Qed.
(* a log of errors, a header in a list and a named rule, and what the configuration has at their places *)
Example C174_values_demo : let f := demo_file (txt "10s") (txt "proxy + via wm") [] in
  load demo_lib (fun _ => blank) config f = Ok demo_good /\
  (sub f [Key (txt "http"); Key (txt "error_log")] = Some (VOne (txt "error warn")) /\ setting ["http"%string] "error_log" = KErrorLog /\
   dsub demo_good [Key (txt "http"); Key (txt "error_log")] = Some (DOne (OLog (CLog (txt "error") [] LWarn)))) /\
  (sub f [Key (txt "http"); Key (txt "server"); At 0; Key (txt "headers"); At 0] = Some (VOne (txt "proxy + via wm")) /\ setting ["http"; "server"]%string "headers" = KHeader) /\
  (sub f [Key (txt "http"); Key (txt "match_names"); Key (txt "a")] = Some (VOne (txt "/a/*")) /\ setting ["http"%string] "match_names" = KRule) /\
  existsb (fun x => leqb (List.concat (map txt (fst x))) (txt "httpserver") && existsb (String.eqb "headers") (snd x)) file_keys = true.
Proof. cbv zeta. repeat split; vm_compute; reflexivity. Qed.
Example C174_demo_lost :
  (let d := demo (demo_file (txt "5001ms") (txt "proxy + via wm") []) in typed config d /\ inside config d KDur (ODur 706032704) /\ loses demo_lib KDur (ODur 706032704)) /\
  (let d := demo (demo_file (txt "10s") (txt "? via wm") []) in let x := OHead (CHeader ODefault false (txt "via") (txt "wm")) in typed config d /\ inside config d KHeader x /\ loses demo_lib KHeader x) /\
  (let d := demo (demo_file (txt "10s") (txt "+ last-modified 'from proxy'") []) in let x := OHead (CHeader OAdd false (txt "last-modified") (txt "from proxy")) in
     typed config d /\ inside config d KHeader x /\ loses demo_lib KHeader x) /\
  (let d := demo (demo_file (txt "10s") (txt "proxy + via wm") [(txt "try_paths", VOne (txt "/a /b"))]) in let x := OTries (Tries [txt "/a"; txt "/b"] 404) in
     typed config d /\ inside config d KTries x /\ loses demo_lib KTries x).
Proof.
  assert (T : forall a b c, load demo_lib (fun _ => blank) config (demo_file a b c) = Ok (demo (demo_file a b c)) -> typed config (demo (demo_file a b c))) by (intros; apply demo_typed; assumption).
  cbv zeta. split; [|split; [|split]]; (split; [apply T; vm_compute; reflexivity|]; split; [apply singles_inside; vm_compute; tauto|]); cbn [loses].
  - split; [discriminate|]. intros [_ [H|[H _]]]; vm_compute in H; discriminate.
  - split; [reflexivity|]. left. split; reflexivity.
  - split; [reflexivity|]. right. split; [reflexivity|]. split; [left; reflexivity|]. exists (txt "from"), (txt "proxy"). split; [reflexivity|]. split; reflexivity.
  - split; [repeat constructor; discriminate|]. exists [txt "404"]. split; [discriminate|]. split; [repeat constructor; discriminate|vm_compute; reflexivity].
Qed.
Print Assumptions C174_loaded.
Print Assumptions C174_rule.
Print Assumptions C174_values.
Print Assumptions C174_exact_partial.
Print Assumptions C174_shown_partial.
Print Assumptions C174_lost_refuted.
