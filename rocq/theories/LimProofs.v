From Verif Require Import Base LimModel LimSpec.
Open Scope N_scope.

Lemma own_app a t1 t2 : own a (t1 ++ t2) = own a t2 ++ own a t1.
Proof.
  induction t1 as [|r t1 IH]; cbn [own app]; [rewrite app_nil_r; reflexivity|].
  rewrite IH, app_assoc. reflexivity.
Qed.

Lemma keys_insert {V} (a : ip) (v : V) m : 
  map fst (insert leqb a v m) = if has leqb a m then map fst m else map fst m ++ [a].
Proof.
  induction m as [|[k w] m IH]; [reflexivity|]. cbn [insert map fst]. unfold has in *. cbn [lookup].
  destruct (leqb a k) eqn:E.
  - apply leqb_ok in E as ->. reflexivity.
  - cbn [map fst]. rewrite IH. destruct (lookup leqb a m); reflexivity.
Qed.
Lemma lookup_filter {V} (p : ip * V -> bool) m (a : ip) : NoDup (map fst m) ->
  lookup leqb a (filter p m) =
  match lookup leqb a m with Some v => if p (a, v) then Some v else None | None => None end.
Proof.
  induction m as [|[k v] m IH]; intros Hn; [reflexivity|]. inversion Hn as [|? ? Hk Hm]; subst.
  cbn [filter lookup]. destruct (leqb a k) eqn:E.
  - apply leqb_ok in E as ->. destruct (p (k, v)) eqn:Ep; cbn [lookup]; [rewrite leqb_refl; reflexivity|].
    rewrite IH by exact Hm. replace (lookup leqb k m) with (@None V); [reflexivity|].
    symmetry. apply lookup_None_notin; [exact leqb_ok|exact Hk].
  - destruct (p (k, v)); cbn [lookup]; rewrite ?E; apply IH; exact Hm.
Qed.
Lemma NoDup_filter_keys {V} (p : ip * V -> bool) m : NoDup (map fst m) -> NoDup (map fst (filter p m)).
Proof.
  induction m as [|[k v] m IH]; intros Hn; [constructor|]. inversion Hn as [|? ? Hk Hm]; subst.
  cbn [filter]. destruct (p (k, v)); [|apply IH; exact Hm]. cbn [map fst]. constructor; [|apply IH; exact Hm].
  intros Hin. apply Hk. clear - Hin. induction m as [|[k' v'] m IH]; [destruct Hin|].
  cbn [filter] in Hin. destruct (p (k', v')); cbn [map fst In] in *; [destruct Hin as [->|Hin]; auto|auto].
Qed.
Lemma NoDup_snoc {A} (l : list A) x : NoDup l -> ~ In x l -> NoDup (l ++ [x]).
Proof. intros H1 H2. apply (NoDup_Add (Add_app x l [])). rewrite app_nil_r. split; assumption. Qed.

(* state vs history, T = latest reading of the clock *)
Definition linv (T : N) (z : zone) (tr : list rec) : Prop :=
  NoDup (map fst (z_ips z)) /\
  forall a, match lookup leqb a (z_ips z) with
            | Some i => exists ts, own a tr = i_last i :: ts /\ i_nums i = count (z_per z) (i_last i :: ts) /\ i_last i <= T
            | None => own a tr = [] \/ exists t ts, own a tr = t :: ts /\ 50 * z_per z < T - t
            end.

Lemma linv_time T T' z tr : linv T z tr -> T <= T' -> linv T' z tr.
Proof.
  intros [H1 H2] Hle. split; [exact H1|]. intros a. specialize (H2 a).
  destruct (lookup leqb a (z_ips z)) as [i|].
  - destruct H2 as (ts & A & B & C). exists ts. repeat split; try assumption. lia.
  - destruct H2 as [H2|(t & ts & A & B)]; [left; exact H2|right; exists t, ts; split; [exact A|lia]].
Qed.

Lemma remove_fields now z : z_limit (try_remove_unuse now z) = z_limit z /\
  z_nums (try_remove_unuse now z) = z_nums z /\ z_per (try_remove_unuse now z) = z_per z.
Proof.
  unfold try_remove_unuse. destruct (_ <? _); [repeat split|]. destruct (_ <? _); repeat split.
Qed.
Lemma remove_linv T now z tr : linv T z tr -> T <= now -> linv now (try_remove_unuse now z) tr.
Proof.
  intros H Hle. unfold try_remove_unuse.
  destruct (nlen (z_ips z) <? z_limit z / 10); [apply (linv_time T); assumption|].
  destruct (now - z_removed z <? 100 * z_per z); [apply (linv_time T); assumption|].
  apply (linv_time T now) in H; [|exact Hle]. destruct H as [H1 H2]. split.
  - apply NoDup_filter_keys. exact H1.
  - intros a. specialize (H2 a). cbn [z_ips z_per]. rewrite lookup_filter by exact H1.
    destruct (lookup leqb a (z_ips z)) as [i|]; [|exact H2].
    cbn [snd]. destruct (N.ltb_spec (50 * z_per z) (now - i_last i)) as [Hl|Hl]; cbn [negb].
    + destruct H2 as (ts & A & B & C). right. exists (i_last i), ts. split; [exact A|exact Hl].
    + exact H2.
Qed.

(* the verdict the code gives, the sum of rate and burst being a machine number *)
Definition judge' (n b per c : N) : verdict :=
  if c <=? n then LOk else if c <=? allowed n b then LDelay per else LRefuse.
Lemma recv_spec T z tr q full v z' :
  linv T z tr -> T <= q_now1 q -> q_now1 q <= q_now2 q -> 1 <= z_nums z ->
  inner_recv (q_ip q) (q_burst q) (q_now1 q) (q_now2 q) z = ((full, v), z') ->
  linv (q_now2 q) z' (tr ++ [Rec q full v]) /\
  (z_limit z' = z_limit z /\ z_nums z' = z_nums z /\ z_per z' = z_per z) /\
  v = (if full then LRefuse
       else judge' (z_nums z) (q_burst q) (z_per z) (count (z_per z) (q_now2 q :: own (q_ip q) tr))) /\
  (full = true <-> z_limit z <= nlen (z_ips (try_remove_unuse (q_now1 q) z))).
Proof.
  intros H Hle1 Hle2 Hn Hr. destruct (remove_fields (q_now1 q) z) as (F1 & F2 & F3).
  pose proof (remove_linv _ _ _ _ H Hle1) as H'. unfold inner_recv in Hr.
  revert H' Hr F1 F2 F3. generalize (try_remove_unuse (q_now1 q) z) as w. intros w [H1 H2] Hr F1 F2 F3.
  rewrite F1, F2, F3 in Hr. rewrite F3 in H2.
  destruct (N.leb_spec (z_limit z) (nlen (z_ips w))) as [Hf|Hf].
  - injection Hr as <- <- <-. split; [|split; [repeat split; assumption|]].
    + apply (linv_time (q_now1 q)); [|exact Hle2]. split; [exact H1|]. intros a. specialize (H2 a).
      rewrite own_app. cbn [own r_full app]. rewrite F3. exact H2.
    + split; [reflexivity|]. split; [intros _; exact Hf|reflexivity].
  - assert (Hup : forall i', i_last i' = q_now2 q ->
       i_nums i' = count (z_per z) (q_now2 q :: own (q_ip q) tr) -> forall u,
       linv (q_now2 q) (Zone (insert leqb (q_ip q) i' (z_ips w)) (z_limit z) (z_nums z) (z_per z) (z_removed w))
            (tr ++ [Rec q false u])).
    { intros i' Ei Ec u. split; cbn [z_ips z_per].
      - rewrite keys_insert. unfold has. destruct (lookup leqb (q_ip q) (z_ips w)) eqn:El; [exact H1|].
        apply NoDup_snoc; [exact H1|]. apply (lookup_None_notin leqb leqb_ok). exact El.
      - intros a. rewrite own_app. cbn [own r_full r_req app].
        destruct (leqb (q_ip q) a) eqn:Ea.
        + apply leqb_ok in Ea as <-. rewrite (lookup_insert_eq leqb leqb_ok).
          exists (own (q_ip q) tr). rewrite Ei. cbn [app]. repeat split; [exact Ec|lia].
        + rewrite (lookup_insert_ne leqb leqb_ok) by (intros ->; rewrite leqb_refl in Ea; discriminate).
          specialize (H2 a). cbn [app]. destruct (lookup leqb a (z_ips w)) as [i|].
          * destruct H2 as (ts & A & B & C). exists ts. repeat split; try assumption. lia.
          * destruct H2 as [G|(t & ts & A & B)]; [left; exact G|right; exists t, ts; split; [exact A|lia]]. }
    specialize (H2 (q_ip q)). destruct (lookup leqb (q_ip q) (z_ips w)) as [i|] eqn:El.
    + destruct H2 as (ts & A & B & C).
      assert (Ec : i_nums (recv_req (z_per z) (q_now2 q) i) = count (z_per z) (q_now2 q :: own (q_ip q) tr)).
      { rewrite A. change (count (z_per z) (q_now2 q :: i_last i :: ts)) with
          (if z_per z <? q_now2 q - i_last i then 1 else count (z_per z) (i_last i :: ts) + 1).
        unfold recv_req. destruct (_ <? _); [reflexivity|]. cbn [i_nums]. rewrite B. reflexivity. }
      injection Hr as <- <- <-. split; [|split; [repeat split|split]].
      * apply Hup; [unfold recv_req; destruct (_ <? _); reflexivity|exact Ec].
      * rewrite Ec. reflexivity.
      * split; [discriminate|lia].
    + assert (Ec : 1 = count (z_per z) (q_now2 q :: own (q_ip q) tr)).
      { destruct H2 as [G|(t & ts & A & B)]; [rewrite G; reflexivity|]. rewrite A.
        change (count (z_per z) (q_now2 q :: t :: ts)) with
          (if z_per z <? q_now2 q - t then 1 else count (z_per z) (t :: ts) + 1).
        replace (z_per z <? q_now2 q - t) with true by lia. reflexivity. }
      injection Hr as <- <- <-. split; [|split; [repeat split|split]].
      * apply Hup; [reflexivity|exact Ec].
      * rewrite <- Ec. unfold judge'. replace (1 <=? z_nums z) with true by lia. reflexivity.
      * split; [discriminate|lia].
Qed.

Lemma zrun_spec rs : forall T z tr0 z' tr,
  linv T z tr0 -> clock_ok T rs -> 1 <= z_nums z -> zrun z rs = (z', tr) ->
  forall a r b, tr = a ++ r :: b ->
  r_verdict r = if r_full r then LRefuse
    else judge' (z_nums z) (q_burst (r_req r)) (z_per z)
           (count (z_per z) (q_now2 (r_req r) :: own (q_ip (r_req r)) (tr0 ++ a))).
Proof.
  induction rs as [|q rs IH]; intros T z tr0 z' tr H Hc Hn Hrun a r b E; cbn [zrun] in Hrun.
  - injection Hrun as <- <-. destruct a; discriminate.
  - destruct (inner_recv _ _ _ _ z) as [[full v] z1] eqn:Er.
    destruct (zrun z1 rs) as [z2 tr2] eqn:E2. injection Hrun as <- <-.
    destruct Hc as (C1 & C2 & C3).
    destruct (recv_spec _ _ _ _ _ _ _ H C1 C2 Hn Er) as (L & (F1 & F2 & F3) & Hv & _).
    destruct a as [|x a]; cbn in E.
    + injection E as <- <-. rewrite app_nil_r. exact Hv.
    + injection E as <- E. rewrite <- F2, <- F3.
      replace (tr0 ++ Rec q full v :: a) with ((tr0 ++ [Rec q full v]) ++ a) by (rewrite <- app_assoc; reflexivity).
      eapply IH; try eassumption. rewrite F2. exact Hn.
Qed.

Lemma linv_new limit nums per t0 : linv t0 (zone_new limit nums per t0) [].
Proof. split; [constructor|]. intros a. left. reflexivity. Qed.

Lemma zone_spec' limit nums per t0 rs z tr : 1 <= nums -> clock_ok t0 rs ->
  zrun (zone_new limit nums per t0) rs = (z, tr) ->
  forall a r b, tr = a ++ r :: b ->
  r_verdict r = if r_full r then LRefuse
    else judge' nums (q_burst (r_req r)) per
           (count per (q_now2 (r_req r) :: own (q_ip (r_req r)) a)).
Proof.
  intros Hn Hc H a r b E.
  exact (zrun_spec rs t0 (zone_new limit nums per t0) [] z tr (linv_new _ _ _ _) Hc Hn H a r b E).
Qed.

Lemma judge_fits n b per c : n + b <= u64 -> judge' n b per c = judge n b per c.
Proof. intros H. unfold judge', judge, allowed. rewrite (N.mod_small (n + b)); [reflexivity|]. unfold u64 in H. lia. Qed.
Lemma zone_spec limit nums per t0 rs z tr : 1 <= nums -> clock_ok t0 rs ->
  zrun (zone_new limit nums per t0) rs = (z, tr) ->
  forall a r b, tr = a ++ r :: b -> nums + q_burst (r_req r) <= u64 ->
  r_verdict r = if r_full r then LRefuse
    else judge nums (q_burst (r_req r)) per
           (count per (q_now2 (r_req r) :: own (q_ip (r_req r)) a)).
Proof.
  intros Hn Hc H a r b E Hb. rewrite (zone_spec' _ _ _ _ _ _ _ Hn Hc H a r b E), judge_fits by exact Hb. reflexivity.
Qed.

Lemma large_burst limit nums per t0 rs z tr : 1 <= nums -> clock_ok t0 rs ->
  zrun (zone_new limit nums per t0) rs = (z, tr) ->
  forall a r b, tr = a ++ r :: b -> nums <= u64 -> q_burst (r_req r) <= u64 -> u64 < nums + q_burst (r_req r) ->
  r_full r = false ->
  let c := count per (q_now2 (r_req r) :: own (q_ip (r_req r)) a) in
  (c <= nums -> r_verdict r = LOk) /\
  (nums < c -> c <= u64 -> r_verdict r = LRefuse /\ judge nums (q_burst (r_req r)) per c = LDelay per).
Proof.
  intros Hn Hc H a r b E Hn2 Hb Ho F c. rewrite (zone_spec' _ _ _ _ _ _ _ Hn Hc H a r b E), F. fold c.
  assert (A : allowed nums (q_burst (r_req r)) < nums).
  { unfold allowed. replace (nums + q_burst (r_req r)) with ((nums + q_burst (r_req r) - 2 ^ 64) + 1 * 2 ^ 64) by (unfold u64 in *; lia).
    rewrite N.mod_add, N.mod_small by (unfold u64 in *; lia). unfold u64 in *. lia. }
  unfold judge', judge. split.
  - intros L. replace (c <=? nums) with true by lia. reflexivity.
  - intros L U. replace (c <=? nums) with false by lia. replace (c <=? allowed nums (q_burst (r_req r))) with false by lia.
    replace (c <=? nums + q_burst (r_req r)) with true by lia. split; reflexivity.
Qed.

(* full means: that many different addresses were counted *)
Definition tracked (z : zone) (tr : list rec) : Prop :=
  NoDup (map fst (z_ips z)) /\ forall a, In a (map fst (z_ips z)) -> own a tr <> [].

Lemma tracked_step z tr q full v z' : tracked z tr ->
  inner_recv (q_ip q) (q_burst q) (q_now1 q) (q_now2 q) z = ((full, v), z') ->
  tracked z' (tr ++ [Rec q full v]) /\ z_limit z' = z_limit z /\
  (full = true -> z_limit z <= nlen (z_ips z)).
Proof.
  intros [H1 H2] Hr. unfold inner_recv in Hr.
  destruct (remove_fields (q_now1 q) z) as (F1 & _ & _).
  assert (Hw : NoDup (map fst (z_ips (try_remove_unuse (q_now1 q) z))) /\
     (forall a, In a (map fst (z_ips (try_remove_unuse (q_now1 q) z))) -> own a tr <> []) /\
     nlen (z_ips (try_remove_unuse (q_now1 q) z)) <= nlen (z_ips z)).
  { unfold try_remove_unuse. destruct (_ <? _); [split; [exact H1|split; [exact H2|lia]]|].
    destruct (_ <? _); [split; [exact H1|split; [exact H2|lia]]|]. cbn [z_ips].
    split; [apply NoDup_filter_keys; exact H1|]. split.
    - intros a Hin. apply H2. apply in_map_iff in Hin as (kv & <- & Hin). apply filter_In in Hin as [Hin _].
      apply in_map. exact Hin.
    - clear. induction (z_ips z) as [|x l IH]; cbn [filter]; [lia|].
      destruct (negb _); rewrite ?nlen_cons; lia. }
  revert Hr Hw F1. generalize (try_remove_unuse (q_now1 q) z) as w. intros w Hr (W1 & W2 & W3) F1.
  assert (Hown : forall a u, own a tr <> [] -> own a (tr ++ [u]) <> []).
  { intros a u G E. rewrite own_app in E. apply app_eq_nil in E as [_ E]. auto. }
  destruct (N.leb_spec (z_limit w) (nlen (z_ips w))) as [Hf|Hf].
  - injection Hr as <- <- <-. split; [split; [exact W1|]|split; [exact F1|intros _; lia]].
    intros a Hin. apply Hown. auto.
  - assert (Hins : forall i u, tracked (Zone (insert leqb (q_ip q) i (z_ips w)) (z_limit w) (z_nums w) (z_per w) (z_removed w))
        (tr ++ [Rec q false u])).
    { intros i u. split; cbn [z_ips]; rewrite keys_insert; unfold has;
        destruct (lookup leqb (q_ip q) (z_ips w)) eqn:El.
      - exact W1.
      - apply NoDup_snoc; [exact W1|]. apply (lookup_None_notin leqb leqb_ok). exact El.
      - intros a Hin. apply Hown; auto.
      - intros a Hin. apply in_app_iff in Hin as [Hin|[<-|[]]]; [apply Hown; auto|].
        rewrite own_app. cbn [own r_full r_req]. rewrite leqb_refl. discriminate. }
    destruct (lookup leqb (q_ip q) (z_ips w)); injection Hr as <- <- <-;
      (split; [apply Hins|split; [exact F1|discriminate]]).
Qed.

Lemma zrun_full rs : forall z tr0 z' tr, tracked z tr0 -> zrun z rs = (z', tr) ->
  forall a r b, tr = a ++ r :: b -> r_full r = true ->
  exists l, NoDup l /\ z_limit z <= nlen l /\ forall x, In x l -> own x (tr0 ++ a) <> [].
Proof.
  induction rs as [|q rs IH]; intros z tr0 z' tr H Hrun a r b E Hf; cbn [zrun] in Hrun.
  - injection Hrun as <- <-. destruct a; discriminate.
  - destruct (inner_recv _ _ _ _ z) as [[full v] z1] eqn:Er.
    destruct (zrun z1 rs) as [z2 tr2] eqn:E2. injection Hrun as <- <-.
    destruct (tracked_step _ _ _ _ _ _ H Er) as (L & F1 & Hv).
    destruct a as [|x a]; cbn in E.
    + injection E as <- <-. cbn [r_full] in Hf. subst full. exists (map fst (z_ips z)).
      destruct H as [H1 H2]. split; [exact H1|]. split.
      * unfold nlen in *. rewrite map_length. apply Hv. reflexivity.
      * rewrite app_nil_r. exact H2.
    + injection E as <- E. rewrite <- F1.
      replace (tr0 ++ Rec q full v :: a) with ((tr0 ++ [Rec q full v]) ++ a) by (rewrite <- app_assoc; reflexivity).
      eapply IH; eassumption.
Qed.

Lemma own_In x tr : own x tr <> [] -> exists r, In r tr /\ q_ip (r_req r) = x.
Proof.
  induction tr as [|r tr IH]; cbn [own]; [congruence|].
  intros H. destruct (r_full r).
  - rewrite app_nil_r in H. destruct (IH H) as (r' & A & B). exists r'. split; [right; exact A|exact B].
  - destruct (leqb (q_ip (r_req r)) x) eqn:E.
    + exists r. split; [left; reflexivity|]. apply leqb_ok. exact E.
    + rewrite app_nil_r in H. destruct (IH H) as (r' & A & B). exists r'. split; [right; exact A|exact B].
Qed.

Lemma zone_full limit nums per t0 rs z tr :
  zrun (zone_new limit nums per t0) rs = (z, tr) ->
  forall a r b, tr = a ++ r :: b -> r_full r = true ->
  exists l, NoDup l /\ limit <= nlen l /\ forall x, In x l -> exists r', In r' a /\ q_ip (r_req r') = x.
Proof.
  intros H a r b E Hf.
  destruct (zrun_full rs (zone_new limit nums per t0) [] z tr) with (a := a) (r := r) (b := b)
    as (l & A & B & C); try assumption.
  { split; [constructor|intros x []]. }
  exists l. split; [exact A|]. split; [exact B|]. intros x Hx. apply own_In. exact (C x Hx).
Qed.

(* requests in other zones *)
Lemma zones_independent k a burst n1 n2 t k' : k' <> k ->
  lookup leqb k' (snd (recv_new_req k a burst n1 n2 t)) = lookup leqb k' t.
Proof.
  intros Hne. unfold recv_new_req. destruct (lookup leqb k t) as [z|]; [|reflexivity].
  destruct (inner_recv a burst n1 n2 z) as [v z']. cbn [snd].
  apply (lookup_insert_ne leqb leqb_ok). exact Hne.
Qed.
Lemma zones_same k a burst n1 n2 t z : lookup leqb k t = Some z ->
  fst (recv_new_req k a burst n1 n2 t) = fst (inner_recv a burst n1 n2 z) /\
  lookup leqb k (snd (recv_new_req k a burst n1 n2 t)) = Some (snd (inner_recv a burst n1 n2 z)).
Proof.
  intros E. unfold recv_new_req. rewrite E. destruct (inner_recv a burst n1 n2 z) as [v z'].
  split; [reflexivity|]. apply (lookup_insert_eq leqb leqb_ok).
Qed.

(* ---- no recovery --------------------------------------------------------- *)
(* times t0, t0+gap, t0+2*gap, ... *)
Fixpoint steady (a : ip) (b t gap : N) (k : nat) : list req :=
  match k with O => [] | S k' => Req a b t t :: steady a b (t + gap) gap k' end.
Lemma steady_clock a b gap k : forall t T, T <= t -> clock_ok T (steady a b t gap k).
Proof.
  induction k as [|k IH]; intros t T H; cbn [steady clock_ok q_now1 q_now2]; [exact I|].
  split; [exact H|]. split; [lia|]. apply IH. lia.
Qed.

Lemma count_pos per t ts : 1 <= count per (t :: ts).
Proof. destruct ts as [|t' ts]; cbn [count]; [lia|]. destruct (_ <? _); lia. Qed.

(* a single client, at least two places in the zone, gaps within the period *)
Lemma steady_run per nums limit a b gap : gap <= per -> 1 < limit -> forall k t c z,
  z_limit z = limit -> z_nums z = nums -> z_per z = per ->
  (exists u, z_ips z = [(a, Inner u c)] /\ u <= t /\ t - u <= gap) ->
  forall i r, nth_error (snd (zrun z (steady a b t gap k))) i = Some r ->
  r_verdict r = judge' nums b per (c + 1 + N.of_nat i).
Proof.
  intros Hg Hlim. induction k as [|k IH]; intros t c z El En Ep (u & Ez & Hu1 & Hu2) i r Hi; cbn [steady zrun] in Hi.
  - destruct i; discriminate.
  - unfold inner_recv in Hi. cbn [q_ip q_burst q_now1 q_now2] in Hi.
    assert (Ht : exists rm, try_remove_unuse t z = Zone [(a, Inner u c)] limit nums per rm).
    { unfold try_remove_unuse. rewrite Ez, El, En, Ep. cbn [filter snd i_last].
      replace (50 * per <? t - u) with false by lia. cbn [negb].
      destruct (_ <? _).
      - exists (z_removed z). destruct z; cbn in *. subst. reflexivity.
      - destruct (_ <? _); [|exists t; reflexivity]. exists (z_removed z). destruct z; cbn in *. subst. reflexivity. }
    destruct Ht as [rm Ht]. rewrite Ht in Hi. cbn [z_limit z_ips z_per z_nums z_removed lookup insert] in Hi.
    change (nlen [(a, Inner u c)]) with 1 in Hi. replace (limit <=? 1) with false in Hi by lia.
    rewrite leqb_refl in Hi. unfold recv_req in Hi. cbn [i_last i_nums] in Hi.
    replace (per <? t - u) with false in Hi by lia. cbn [i_nums] in Hi.
    specialize (IH (t + gap) (c + 1) (Zone [(a, Inner t (c + 1))] limit nums per rm) eq_refl eq_refl eq_refl).
    destruct (zrun _ (steady a b (t + gap) gap k)) as [z2 tr2]. cbn [snd] in *.
    destruct i as [|i]; cbn [nth_error] in Hi.
    + injection Hi as <-. cbn [r_verdict]. unfold judge'. replace (c + 1 + N.of_nat 0) with (c + 1) by lia. reflexivity.
    + rewrite (IH ltac:(exists t; split; [reflexivity|lia]) i r Hi). f_equal. lia.
Qed.

Lemma steady_refused per nums limit a b gap t k :
  gap <= per -> 1 < limit -> forall i r,
  nth_error (snd (zrun (zone_new limit nums per t) (steady a b t gap k))) i = Some r ->
  nums + b <= N.of_nat i -> 1 <= N.of_nat i -> r_verdict r = LRefuse.
Proof.
  intros Hg Hlim i r Hi Hb Hpos. destruct k as [|k]; [destruct i; discriminate|].
  cbn [steady zrun] in Hi. unfold inner_recv in Hi. cbn [q_ip q_burst q_now1 q_now2] in Hi.
  assert (Ht : exists rm, try_remove_unuse t (zone_new limit nums per t) = Zone [] limit nums per rm).
  { unfold try_remove_unuse, zone_new. cbn [z_ips z_limit z_per z_removed z_nums filter].
    destruct (_ <? _); [exists t; reflexivity|]. destruct (_ <? _); exists t; reflexivity. }
  destruct Ht as [rm Ht]. rewrite Ht in Hi. cbn [z_limit z_ips z_per z_nums z_removed lookup insert] in Hi.
  rewrite nlen_nil in Hi. replace (limit <=? 0) with false in Hi by lia.
  pose proof (steady_run per nums limit a b gap Hg Hlim k (t + gap) 1
    (Zone [(a, Inner t 1)] limit nums per rm) eq_refl eq_refl eq_refl) as G.
  destruct (zrun _ (steady a b (t + gap) gap k)) as [z2 tr2]. cbn [snd] in *.
  destruct i as [|i]; [lia|]. cbn [nth_error] in Hi.
  rewrite (G ltac:(exists t; split; [reflexivity|lia]) i r Hi). unfold judge'.
  assert (allowed nums b <= nums + b) by (apply N.mod_le; discriminate).
  replace (1 + 1 + N.of_nat i <=? nums) with false by lia.
  replace (1 + 1 + N.of_nat i <=? allowed nums b) with false by lia. reflexivity.
Qed.

Lemma steady_length a b gap : forall k t z, length (snd (zrun z (steady a b t gap k))) = k.
Proof.
  induction k as [|k IH]; intros t z; [reflexivity|]. cbn [steady zrun].
  destruct (inner_recv _ _ _ _ z) as [[full v] z1]. specialize (IH (t + gap) z1).
  destruct (zrun z1 _) as [z2 tr2]. cbn [snd length] in *. congruence.
Qed.

(* ---- a full zone locks everybody out ------------------------------------- *)
Definition at_once (b t : N) (l : list ip) : list req := map (fun a => Req a b t t) l.

Lemma fill_run b t : forall (l : list ip) z,
  NoDup l -> (forall a, In a l -> lookup leqb a (z_ips z) = None) ->
  (forall kv, In kv (z_ips z) -> i_last (snd kv) = t) ->
  nlen (z_ips z) + nlen l <= z_limit z ->
  let z' := fst (zrun z (at_once b t l)) in
  nlen (z_ips z') = nlen (z_ips z) + nlen l /\ z_limit z' = z_limit z /\ z_per z' = z_per z /\
  (forall kv, In kv (z_ips z') -> i_last (snd kv) = t).
Proof.
  induction l as [|a l IH]; intros z Hn Hl Ht Hlen; cbn [at_once map zrun].
  - rewrite nlen_nil. cbn [fst]. split; [lia|]. split; [reflexivity|]. split; [reflexivity|exact Ht].
  - assert (Hrm : exists rm, try_remove_unuse t z = Zone (z_ips z) (z_limit z) (z_nums z) (z_per z) rm).
    { unfold try_remove_unuse. destruct (_ <? _); [exists (z_removed z); destruct z; reflexivity|].
      destruct (_ <? _); [exists (z_removed z); destruct z; reflexivity|]. exists t.
      f_equal. clear - Ht. induction (z_ips z) as [|kv m IHm]; [reflexivity|]. cbn [filter].
      rewrite (Ht kv) by (left; reflexivity). replace (50 * z_per z <? t - t) with false by lia. cbn [negb].
      rewrite IHm; [reflexivity|]. intros k' Hk. apply Ht. right. exact Hk. }
    destruct Hrm as [rm Hrm]. unfold inner_recv. cbn [q_ip q_burst q_now1 q_now2]. rewrite Hrm.
    cbn [z_limit z_ips z_per z_nums z_removed].
    rewrite nlen_cons in Hlen. replace (z_limit z <=? nlen (z_ips z)) with false by lia.
    rewrite (Hl a (or_introl eq_refl)). inversion Hn as [|? ? Ha Hn']; subst.
    assert (Eins : forall i, insert leqb a i (z_ips z) = z_ips z ++ [(a, i)]).
    { intros i. pose proof (Hl a (or_introl eq_refl)) as E. clear - E. induction (z_ips z) as [|[k v] m IHm]; [reflexivity|].
      cbn [insert lookup app] in *. destruct (leqb a k); [discriminate|]. rewrite IHm by exact E. reflexivity. }
    specialize (IH (Zone (insert leqb a (Inner t 1) (z_ips z)) (z_limit z) (z_nums z) (z_per z) rm)).
    unfold at_once in IH. match type of IH with context [zrun ?u ?v] => destruct (zrun u v) as [z2 tr2] end.
    cbn [fst z_ips z_limit z_per] in *.
    destruct IH as (A & B & C & D).
    + exact Hn'.
    + intros x Hx. rewrite (lookup_insert_ne leqb leqb_ok) by (intros ->; contradiction). apply Hl. right. exact Hx.
    + intros kv Hin. rewrite Eins in Hin. apply in_app_iff in Hin as [Hin|[<-|[]]]; [apply Ht; exact Hin|reflexivity].
    + rewrite Eins, nlen_app, nlen_cons, nlen_nil. lia.
    + rewrite Eins, nlen_app, nlen_cons, nlen_nil in A. rewrite nlen_cons. split; [lia|]. split; [exact B|]. split; [exact C|exact D].
Qed.

Lemma full_refuses a b now1 now2 z : z_limit z <= nlen (z_ips z) ->
  (forall kv, In kv (z_ips z) -> now1 - i_last (snd kv) <= 50 * z_per z) ->
  fst (inner_recv a b now1 now2 z) = (true, LRefuse) /\
  z_ips (snd (inner_recv a b now1 now2 z)) = z_ips z /\
  z_limit (snd (inner_recv a b now1 now2 z)) = z_limit z /\
  z_per (snd (inner_recv a b now1 now2 z)) = z_per z.
Proof.
  intros Hf Hold.
  assert (Hrm : exists rm, try_remove_unuse now1 z = Zone (z_ips z) (z_limit z) (z_nums z) (z_per z) rm).
  { unfold try_remove_unuse. destruct (_ <? _); [exists (z_removed z); destruct z; reflexivity|].
    destruct (_ <? _); [exists (z_removed z); destruct z; reflexivity|]. exists now1.
    f_equal. clear - Hold. induction (z_ips z) as [|kv m IHm]; [reflexivity|]. cbn [filter].
    pose proof (Hold kv (or_introl eq_refl)). replace (50 * z_per z <? now1 - i_last (snd kv)) with false by lia.
    cbn [negb]. rewrite IHm; [reflexivity|]. intros k' Hk. apply Hold. right. exact Hk. }
  destruct Hrm as [rm Hrm]. unfold inner_recv. rewrite Hrm. cbn [z_limit z_ips].
  replace (z_limit z <=? nlen (z_ips z)) with true by lia. repeat split.
Qed.

Lemma zrun_app z r1 r2 : zrun z (r1 ++ r2) =
  let '(z1, t1) := zrun z r1 in let '(z2, t2) := zrun z1 r2 in (z2, t1 ++ t2).
Proof.
  revert z. induction r1 as [|q r1 IH]; intros z; cbn [zrun app].
  - destruct (zrun z r2); reflexivity.
  - destruct (inner_recv _ _ _ _ z) as [[f v] z1]. rewrite IH. destruct (zrun z1 r1) as [z2 t2].
    destruct (zrun z2 r2); reflexivity.
Qed.

Lemma refuse_all t : forall rs z, z_limit z <= nlen (z_ips z) ->
  (forall kv, In kv (z_ips z) -> i_last (snd kv) = t) ->
  Forall (fun q => q_now1 q <= t + 50 * z_per z) rs ->
  Forall (fun r => r_verdict r = LRefuse) (snd (zrun z rs)).
Proof.
  induction rs as [|q rs IH]; intros z Hf Hlast Hq; cbn [zrun]; [constructor|].
  inversion Hq as [|? ? Hq1 Hq2]; subst.
  destruct (full_refuses (q_ip q) (q_burst q) (q_now1 q) (q_now2 q) z Hf) as (A & B & C & D).
  { intros kv Hin. rewrite (Hlast kv Hin). lia. }
  destruct (inner_recv _ _ _ _ z) as [[f v] z1]. cbn [fst snd] in *. injection A as -> ->.
  specialize (IH z1). rewrite B, C, D in IH. specialize (IH Hf Hlast Hq2).
  destruct (zrun z1 rs) as [z2 t2]. constructor; [reflexivity|exact IH].
Qed.

Lemma full_lockout limit nums per b t (l : list ip) rs :
  NoDup l -> nlen l = limit ->
  Forall (fun q => q_now1 q <= t + 50 * per) rs ->
  Forall (fun r => r_verdict r = LRefuse)
    (snd (zrun (fst (zrun (zone_new limit nums per t) (at_once b t l))) rs)).
Proof.
  intros Hn Hl Hq.
  destruct (fill_run b t l (zone_new limit nums per t)) as (A & B & C & D).
  - exact Hn.
  - reflexivity.
  - intros kv [].
  - cbn [z_ips z_limit zone_new]. rewrite nlen_nil. change (0 + nlen l <= limit). lia.
  - destruct (zrun (zone_new limit nums per t) (at_once b t l)) as [z' tr] eqn:E. cbn [fst z_ips z_limit z_per zone_new] in *.
    cbn [z_ips zone_new] in A. rewrite nlen_nil in A. apply (refuse_all t).
    + rewrite B, A. change (limit <= 0 + nlen l). lia.
    + exact D.
    + rewrite C. exact Hq.
Qed.

(* ---- the middleware -------------------------------------------------------- *)
Definition mine (k : list N) (cs : list call) : list req :=
  flat_map (fun q => if leqb (c_zone q) k
    then match c_client q with Some a => [Req a (c_burst q) (c_now1 q) (c_now2 q)] | None => [] end else []) cs.
Definition recs (k : list N) (tr : list (call * gate)) : list (req * gate) :=
  flat_map (fun x => if leqb (c_zone (fst x)) k
    then match c_client (fst x) with Some a => [(Req a (c_burst (fst x)) (c_now1 (fst x)) (c_now2 (fst x)), snd x)] | None => [] end
    else []) tr.
Lemma gates_zone k : forall cs t z t' tr z' rs, lookup leqb k t = Some z -> gates t cs = (t', tr) ->
  zrun z (mine k cs) = (z', rs) ->
  lookup leqb k t' = Some z' /\ recs k tr = map (fun r => (r_req r, shown (r_verdict r))) rs /\ map fst tr = cs.
Proof.
  induction cs as [|q cs IH]; intros t z t' tr z' rs Hz Hg Hr.
  - cbn in *. injection Hg as <- <-. injection Hr as <- <-. repeat split. exact Hz.
  - cbn [gates] in Hg. destruct (process_request (c_client q) (c_zone q) (c_burst q) (c_now1 q) (c_now2 q) t) as [g t1] eqn:P.
    destruct (gates t1 cs) as [t2 tr2] eqn:G. injection Hg as <- <-.
    cbn [mine flat_map] in Hr. cbn [recs flat_map fst snd map].
    unfold process_request in P. destruct (c_client q) as [a|] eqn:C.
    + destruct (leqb (c_zone q) k) eqn:E.
      * apply leqb_ok in E. rewrite E in P. unfold recv_new_req in P. rewrite Hz in P.
        destruct (inner_recv a (c_burst q) (c_now1 q) (c_now2 q) z) as [[f v] z1] eqn:I.
        injection P as <- <-. cbn [app] in Hr. fold (mine k cs) in Hr. cbn [zrun q_ip q_burst q_now1 q_now2] in Hr. rewrite I in Hr.
        destruct (zrun z1 (mine k cs)) as [z2 rs2] eqn:R. injection Hr as <- <-.
        destruct (IH (insert leqb k z1 t) z1 t2 tr2 z2 rs2 (lookup_insert_eq leqb leqb_ok _ _ _) G R) as (A & B & D).
        split; [exact A|]. split; [|rewrite D; reflexivity].
        fold (recs k tr2). rewrite B. cbn [app map r_req r_verdict]. destruct v; reflexivity.
      * destruct (recv_new_req (c_zone q) a (c_burst q) (c_now1 q) (c_now2 q) t) as [[f v] t0] eqn:Rq.
        injection P as <- <-.
        assert (Hz' : lookup leqb k t0 = Some z).
        { pose proof (zones_independent (c_zone q) a (c_burst q) (c_now1 q) (c_now2 q) t k) as Z.
          rewrite Rq in Z. cbn [snd] in Z. rewrite Z; [exact Hz|]. intros ->. rewrite leqb_refl in E. discriminate. }
        destruct (IH t0 z t2 tr2 z' rs Hz' G Hr) as (A & B & D). split; [exact A|]. split; [exact B|rewrite D; reflexivity].
    + injection P as <- <-. assert (Hr' : zrun z (mine k cs) = (z', rs)) by (destruct (leqb (c_zone q) k); exact Hr).
      destruct (IH t z t2 tr2 z' rs Hz G Hr') as (A & B & D). split; [exact A|]. split; [|rewrite D; reflexivity].
      destruct (leqb (c_zone q) k); exact B.
Qed.

Lemma own_times : forall a rs, (forall r, In r rs -> r_full r = false) ->
  own a rs = rev (flat_map (fun r => if leqb (q_ip (r_req r)) a then [q_now2 (r_req r)] else []) rs).
Proof.
  induction rs as [|r rs IH]; intros H; [reflexivity|]. cbn [own flat_map]. rewrite rev_app_distr, IH by (intros; apply H; right; assumption).
  rewrite (H r (or_introl eq_refl)). destruct (leqb (q_ip (r_req r)) a); reflexivity.
Qed.

Lemma zrun_map z rs : map r_req (snd (zrun z rs)) = rs.
Proof.
  revert z. induction rs as [|q rs IH]; intros z; [reflexivity|]. cbn [zrun].
  destruct (inner_recv (q_ip q) (q_burst q) (q_now1 q) (q_now2 q) z) as [[f v] z1]. specialize (IH z1).
  destruct (zrun z1 rs) as [z2 tr]. cbn [snd map r_req] in *. rewrite IH. reflexivity.
Qed.
Lemma recs_app k a b : recs k (a ++ b) = recs k a ++ recs k b.
Proof. apply flat_map_app. Qed.

Lemma gates_spec k limit nums per t0 t cs t' tr a q g b x :
  1 <= nums -> lookup leqb k t = Some (zone_new limit nums per t0) -> zone_clock k t0 cs ->
  gates t cs = (t', tr) -> tr = a ++ (q, g) :: b -> c_zone q = k -> c_client q = Some x -> nums + c_burst q <= u64 ->
  (forall l, NoDup l -> incl l (askers k a) -> nlen l < limit) ->
  g = shown (judge nums (c_burst q) per (count per (c_now2 q :: times k x a))).
Proof.
  intros Hn Hz Hc Hg E Hk Hx Hb Hl.
  destruct (zrun (zone_new limit nums per t0) (mine k cs)) as [z' rs] eqn:R.
  destruct (gates_zone k cs t _ t' tr z' rs Hz Hg R) as (_ & B & _).
  rewrite E, recs_app in B. cbn [recs flat_map fst snd] in B. rewrite Hx, Hk, leqb_refl in B. cbn [app] in B.
  fold (recs k b) in B. symmetry in B. apply map_eq_app in B as (ra & rb & -> & Ba & Bb).
  destruct rb as [|r rb]; [discriminate|]. cbn [map] in Bb. injection Bb as Hq Hg' _.
  assert (As : map (fun r => q_ip (r_req r)) ra = askers k a).
  { transitivity (map (fun y => q_ip (fst y)) (recs k a)).
    - rewrite <- Ba, map_map. reflexivity.
    - clear. induction a as [|[q g] a IH]; [reflexivity|]. cbn [recs flat_map fst snd askers].
      rewrite map_app. fold (recs k a). rewrite IH. f_equal. destruct (leqb (c_zone q) k); [|reflexivity].
      destruct (c_client q); reflexivity. }
  assert (Small : forall ra' r' rb', ra ++ [r] = ra' ++ r' :: rb' -> r_full r' = false).
  { intros ra' r' rb' Es. destruct (r_full r') eqn:F; [exfalso|reflexivity].
    destruct (zone_full limit nums per t0 (mine k cs) z' _ R ra' r' (rb' ++ rb)) as (l & L1 & L2 & L3).
    - change (ra ++ r :: rb) with (ra ++ [r] ++ rb). rewrite app_assoc, Es, <- app_assoc. reflexivity.
    - exact F.
    - specialize (Hl l L1). assert (incl l (askers k a)); [|lia || (specialize (Hl H); lia)].
      intros y Hy. destruct (L3 y Hy) as (r2 & Hr2 & <-). rewrite <- As. apply in_map_iff. exists r2. split; [reflexivity|].
      assert (In r2 ra' -> In r2 ra).
      { intros I. destruct (exists_last (l := r' :: rb') ltac:(discriminate)) as (w & v & W). rewrite W, app_assoc in Es.
        apply app_inj_tail in Es as [Es _]. rewrite Es. apply in_app_iff. left. exact I. }
      auto. }
  rewrite (zone_spec limit nums per t0 (mine k cs) z' _ Hn Hc R ra r rb eq_refl) in Hg' by (rewrite Hq; exact Hb).
  assert (F : r_full r = false) by (apply (Small ra r []); reflexivity). rewrite F in Hg'.
  rewrite <- Hg', Hq. cbn [q_ip q_burst q_now2]. do 2 f_equal. f_equal. f_equal.
  rewrite own_times.
  - unfold times. f_equal. transitivity (flat_map (fun y => if leqb (q_ip (fst y)) x then [q_now2 (fst y)] else []) (recs k a)).
    + rewrite <- Ba. clear. induction ra as [|r ra IH]; [reflexivity|]. cbn [flat_map map fst]. rewrite IH. reflexivity.
    + clear. induction a as [|[q0 g0] a IH]; [reflexivity|]. cbn [recs flat_map fst snd]. rewrite flat_map_app. fold (recs k a).
      rewrite IH. f_equal. destruct (leqb (c_zone q0) k); [|reflexivity]. destruct (c_client q0); [|reflexivity].
      cbn [flat_map fst q_ip q_now2]. rewrite app_nil_r. reflexivity.
  - intros r0 H0. apply in_split in H0 as (u & v & ->). apply (Small u r0 (v ++ [r])). rewrite <- app_assoc. reflexivity.
Qed.
