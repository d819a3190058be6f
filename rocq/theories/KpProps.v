(* Property theorems: C180, what is kept of things that are over. *)
From Coq Require Import String.
From Verif Require Import Base Text ProtModel ProtSpec CsModel CcModel HealthModel LimModel KpSpec KpProofs.
Open Scope N_scope.

(* C180: each end of a tunnel has one entry for every stream number it ever had, and none
   for any other. *)
Theorem C180_server_one_each : forall c es st tr, run c (s_init c) es = (st, tr) ->
  NoDup (map fst (s_map st)) /\ forall s, In s (map fst (s_map st)) <-> exists h, In (OBind s h) tr.
Proof.
  intros c es st tr H. rewrite (run_map c es _ _ _ H). split.
  - apply (add_all_nodup N.eqb N.eqb_eq). constructor.
  - intros s. rewrite (add_all_in N.eqb N.eqb_eq). cbn [map In s_init s_map]. split.
    + intros [X|[]]. apply in_map_iff in X as ([s' h] & <- & X). exists h. apply in_binds, X.
    + intros (h & X). left. apply in_map_iff. exists (s, h). split; [reflexivity|]. apply in_binds, X.
Qed.
Theorem C180_client_one_each : forall c ms es st tr, krun (k_init c ms) es = (st, tr) ->
  NoDup (map fst (k_map st)) /\ forall s, In s (map fst (k_map st)) <-> exists h, In (QBind s h) tr.
Proof.
  intros c ms es st tr H. rewrite (krun_map es _ _ _ H). split.
  - apply (add_all_nodup N.eqb N.eqb_eq). constructor.
  - intros s. rewrite (add_all_in N.eqb N.eqb_eq). cbn [map In k_init k_map]. split.
    + intros [X|[]]. apply in_map_iff in X as ([s' h] & <- & X). exists h. apply in_kbinds, X.
    + intros (h & X). left. apply in_map_iff. exists (s, h). split; [reflexivity|]. apply in_kbinds, X.
Qed.

(* False of the code that the entries of streams that are over go away: any number of
   streams can come and end on a tunnel that goes on, and an entry stays for each. *)
Theorem C180_server_refuted : forall l, Forall wire_sock l -> NoDup l ->
  exists es st tr, run (Creds None None) (s_init (Creds None None)) es = (st, tr) /\
    s_phase st = PSelect /\ Forall (over_at_server tr st) l /\ map fst (s_map st) = l.
Proof.
  intros l W ND. destruct (rounds (Creds None None) l W ND (s_init (Creds None None)) []) as (es & st & tr & R & Q & M & _ & O).
  - repeat split. intros h [].
  - intros s _ [].
  - exists es, st, tr. split; [exact R|]. split; [apply Q|]. split; [exact O|exact M].
Qed.
Theorem C180_client_refuted : forall c ms l, snd (hello c ms) = None ->
  Forall (fun s => wire_sock s /\ s <> 0) l -> NoDup l ->
  exists es st tr, krun (k_init c ms) es = (st, tr) /\
    k_phase st = KSelect /\ Forall (over_at_client tr st) l /\ map fst (k_map st) = l.
Proof.
  intros c ms l HE W ND. destruct (krounds l W ND (k_init c ms) []) as (es & st & tr & R & Q & M & _ & O).
  - unfold kquiet, k_init. rewrite HE. repeat split. intros h [].
  - intros s _ [].
  - exists es, st, tr. split; [exact R|]. split; [apply Q|]. split; [exact O|exact M].
Qed.
(* the hypotheses are met: two streams on either end *)
Example C180_witness : Forall (fun s => wire_sock s /\ s <> 0) [1; 2] /\ NoDup [1; 2] /\
  snd (hello (Creds (Some (txt "u")) (Some (txt "p"))) []) = None.
Proof.
  split; [|split; [|vm_compute; reflexivity]].
  - repeat constructor; try discriminate; [exists 0, 1|exists 0, 2]; repeat split; reflexivity.
  - constructor; [intros [E|[]]; discriminate|]. constructor; [intros []|constructor].
Qed.

(* C180: the table of addresses has one record for every address an outcome was noted for,
   and none for any other. *)
Theorem C180_addresses_one_each : forall timeout falls rises os,
  NoDup (map fst (c_map (hrun (hcheck_new timeout falls rises) os))) /\
  forall a, In a (map fst (c_map (hrun (hcheck_new timeout falls rises) os))) <-> exists o, In o os /\ hop_addr o = a.
Proof.
  intros t f r os. destruct (hrun_keys os (hcheck_new t f r)) as [A B]; [constructor|]. split; [exact A|].
  intros a. rewrite B. cbn [hcheck_new c_map map In]. rewrite in_map_iff. split.
  - intros [(o & E & I1)|[]]. exists o. auto.
  - intros (o & I1 & E). left. exists o. auto.
Qed.
(* False of the code that a record goes away when it has expired: whatever addresses were
   contacted, at any later time every one of them still has its record. *)
Theorem C180_addresses_refuted : forall timeout falls rises t l now,
  NoDup l -> t + timeout * second < now ->
  let table := c_map (hrun (hcheck_new timeout falls rises) (map (fun a => HRise a t) l)) in
  nlen table = nlen l /\ Forall (fun kv => expired now (snd kv)) table /\
  (forall a, In a l <-> exists v, In (a, v) table).
Proof.
  intros timeout falls rises t l now ND L table.
  destruct (C180_addresses_one_each timeout falls rises (map (fun a => HRise a t) l)) as [A B]. fold table in A, B.
  assert (K : forall a, In a (map fst table) <-> In a l).
  { intros a. rewrite B. split.
    - intros (o & I1 & <-). apply in_map_iff in I1 as (x & <- & I1). exact I1.
    - intros I1. exists (HRise a t). split; [apply in_map_iff; exists a; auto|reflexivity]. }
  split; [|split].
  - assert (length (map fst table) = length l).
    { apply Nat.le_antisymm; apply NoDup_incl_length; try assumption; intros a; apply K. }
    rewrite map_length in H. unfold nlen. rewrite H. reflexivity.
  - assert (G : forall os h, Forall (fun o => exists a, o = HRise a t) os -> c_timeout h = timeout ->
      Forall (fun kv => h_record (snd kv) = t /\ h_timeout (snd kv) = timeout * second) (c_map h) ->
      Forall (fun kv => h_record (snd kv) = t /\ h_timeout (snd kv) = timeout * second) (c_map (hrun h os))).
    { induction os as [|o os IH]; intros h F T C; [exact C|]. inversion F as [|? ? [a ->] F']; subst.
      cbn [hrun fold_left]. apply (IH (hstep h (HRise a t))); [exact F'| |].
      - cbn [hstep]. unfold add_rise_up. destruct (lookup leqb a (c_map h)); reflexivity.
      - assert (P : forall v m, (h_record v = t /\ h_timeout v = c_timeout h * second) ->
          Forall (fun kv : addr * hrec => h_record (snd kv) = t /\ h_timeout (snd kv) = c_timeout h * second) m ->
          Forall (fun kv => h_record (snd kv) = t /\ h_timeout (snd kv) = c_timeout h * second) (insert leqb a v m)).
        { intros v m V. induction 1 as [|[k w] m X Y IHm]; cbn [insert]; [apply Forall_cons; [exact V|apply Forall_nil]|].
          destruct (leqb a k); constructor; auto. }
        cbn [hstep]. unfold add_rise_up. destruct (lookup leqb a (c_map h)) as [v|] eqn:E; cbn [c_map set_map]; apply P; try exact C.
        + cbn [h_record h_timeout]. split; [reflexivity|].
          assert (I1 : exists k, In (k, v) (c_map h)).
          { clear - E. induction (c_map h) as [|[k w] m IHm]; cbn [lookup] in E; [discriminate|].
            destruct (leqb a k); [injection E as ->; exists k; left; reflexivity|]. destruct (IHm E) as (k' & I1). exists k'. right. exact I1. }
          destruct I1 as (k & I1). rewrite Forall_forall in C. apply C in I1. cbn [snd] in I1.
          destruct (_ <? _); [cbn [clear_status h_timeout]|]; apply I1.
        + split; reflexivity. }
    apply Forall_forall. intros kv I1.
    assert (X : Forall (fun kv => h_record (snd kv) = t /\ h_timeout (snd kv) = timeout * second) table).
    { apply G; [|reflexivity|constructor]. apply Forall_forall. intros o I2. apply in_map_iff in I2 as (a & <- & _). exists a. reflexivity. }
    rewrite Forall_forall in X. destruct (X _ I1) as [E1 E2]. unfold expired. rewrite E1, E2. exact L.
  - intros a. rewrite <- K. rewrite in_map_iff. split.
    + intros ([a' v] & <- & I1). exists v. exact I1.
    + intros (v & I1). exists (a, v). auto.
Qed.
Example C180_address_witness :
  c_map (hrun (hcheck_new 30 3 2) (map (fun a => HRise a 5) [txt "10.0.0.1:80"; txt "10.0.0.2:80"]))
  = [(txt "10.0.0.1:80", HRec None 5 (30 * second) 0 1 false); (txt "10.0.0.2:80", HRec None 5 (30 * second) 0 1 false)].
Proof. vm_compute. reflexivity. Qed.

(* C180: a rate limit zone never knows more clients than its configured number. *)
Theorem C180_zone_bounded : forall limit nums per t rs,
  nlen (z_ips (fst (zrun (zone_new limit nums per t) rs))) <= limit.
Proof. intros limit nums per t rs. apply (zone_bound rs (zone_new limit nums per t)). apply N.le_0_l. Qed.
Example C180_zone_witness :
  nlen (z_ips (fst (zrun (zone_new 2 5 1000 0) [Req [1] 0 0 0; Req [2] 0 1 1; Req [3] 0 2 2]))) = 2.
Proof. vm_compute. reflexivity. Qed.

Print Assumptions C180_server_one_each.
Print Assumptions C180_client_one_each.
Print Assumptions C180_server_refuted.
Print Assumptions C180_client_refuted.
Print Assumptions C180_addresses_one_each.
Print Assumptions C180_addresses_refuted.
Print Assumptions C180_zone_bounded.
