From Verif Require Import Base Text ProtModel ProtSpec ProtProofs IdModel.
Open Scope N_scope.

Lemma allocate_nth sid next n : next < 4294967296 ->
  allocate sid next n =
  map (fun i => sid * 4294967296 + (next + 2 * N.of_nat i) mod 4294967296) (seq 0 n).
Proof.
  intros Hn.
  assert (G : forall n k, allocate sid ((next + 2 * N.of_nat k) mod 4294967296) n =
    map (fun i => sid * 4294967296 + (next + 2 * N.of_nat i) mod 4294967296) (seq k n)).
  { clear n. induction n as [|n IH]; intros k; [reflexivity|].
    cbn [allocate calc_next_id seq map]. unfold calc_sock_map.
    f_equal. rewrite <- IH. f_equal.
    rewrite N.add_mod_idemp_l by discriminate. f_equal. lia. }
  specialize (G n O). cbn [N.of_nat] in G. rewrite N.mul_0_r, N.add_0_r in G.
  rewrite N.mod_small in G by assumption. exact G.
Qed.

Lemma NoDup_map_on {A B} (f : A -> B) l :
  (forall x y, In x l -> In y l -> f x = f y -> x = y) -> NoDup l -> NoDup (map f l).
Proof.
  intros Hf Hl. induction Hl as [|x l Hx Hl IH]; cbn [map]; constructor.
  - intros Hin. apply in_map_iff in Hin as (y & Hy & Hin).
    apply Hx. rewrite (Hf x y); auto; [left; reflexivity|right; exact Hin].
  - apply IH. intros a b Ha Hb. apply Hf; right; assumption.
Qed.

Lemma allocate_NoDup sid next n : next < 4294967296 ->
  N.of_nat n <= 2 ^ 31 -> NoDup (allocate sid next n).
Proof.
  intros Hn Hlen. rewrite allocate_nth by assumption.
  apply NoDup_map_on; [|apply seq_NoDup].
  change (2 ^ 31) with 2147483648 in Hlen.
  intros x y Hx Hy Heq. apply in_seq in Hx, Hy.
  assert (N.of_nat x < 2147483648 /\ N.of_nat y < 2147483648) as [? ?] by lia.
  lia.
Qed.

Lemma allocate_parity sid next n id : next < 4294967296 ->
  In id (allocate sid next n) -> id mod 2 = next mod 2.
Proof.
  intros Hn H. rewrite allocate_nth in H by assumption.
  apply in_map_iff in H as (i & <- & _). lia.
Qed.

Lemma ids_disjoint sid1 sid2 n m a b :
  In a (allocate sid1 client_first n) -> In b (allocate sid2 server_first m) -> a <> b.
Proof.
  intros Ha Hb ->.
  apply allocate_parity in Ha; [|reflexivity]. apply allocate_parity in Hb; [|reflexivity].
  rewrite Hb in Ha. discriminate.
Qed.

Lemma allocate_wire sid next n id : next <= 2 -> sid < 2 ^ 32 ->
  N.of_nat n < 2 ^ 23 -> In id (allocate sid next n) -> wire_sock id.
Proof.
  intros Hn Hs Hlen H. rewrite allocate_nth in H by lia.
  change (2 ^ 32) with 4294967296 in *. change (2 ^ 23) with 8388608 in *.
  apply in_map_iff in H as (i & <- & Hi). apply in_seq in Hi.
  exists sid, (next + 2 * N.of_nat i). change (2 ^ 32) with 4294967296.
  change (2 ^ 24) with 16777216. split; [assumption|]. split; [lia|].
  rewrite N.mod_small by lia. reflexivity.
Qed.

Lemma ids_ok sid1 sid2 n m :
  N.of_nat n <= 2 ^ 31 -> N.of_nat m <= 2 ^ 31 ->
  NoDup (allocate sid1 client_first n ++ allocate sid2 server_first m).
Proof.
  intros Hn Hm.
  assert (G : forall (a b : list N), NoDup a -> NoDup b ->
    (forall x, In x a -> ~ In x b) -> NoDup (a ++ b)).
  { intros a b Ha Hb Hd. induction Ha as [|x a Hx Ha IH]; [exact Hb|]. cbn [app]. constructor.
    - rewrite in_app_iff. intros [H|H]; [exact (Hx H)|]. apply (Hd x (or_introl eq_refl) H).
    - apply IH. intros y Hy. apply Hd. right; exact Hy. }
  apply G.
  - apply allocate_NoDup; [reflexivity|exact Hn].
  - apply allocate_NoDup; [reflexivity|exact Hm].
  - intros x Hx Hx'. exact (ids_disjoint _ _ _ _ _ _ Hx Hx' eq_refl).
Qed.
