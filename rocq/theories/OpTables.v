(* The tables of the commands, and what the fields read come to: proofs. *)
From Coq Require Import String.
From Verif Require Import Base Text TextOps AddrModel AddrProofs ConfModel ConfProofs ArgModel OpModel OpSpec OpProofs.
Open Scope N_scope.

Lemma NoDup_check (l : list text) : (fix nd l := match l with [] => true | x :: r => negb (existsb (leqb x) r) && nd r end) l = true -> NoDup l.
Proof.
  induction l as [|x l IH]; [constructor|]. intros H. apply andb_true_iff in H as (H1 & H2). constructor; [|auto].
  intros I. apply negb_true_iff in H1. assert (existsb (leqb x) l = true); [|congruence]. apply existsb_exists. exists x. split; [exact I|apply leqb_refl].
Qed.
Lemma NoDup_checkN (l : list N) : (fix nd l := match l with [] => true | x :: r => negb (existsb (N.eqb x) r) && nd r end) l = true -> NoDup l.
Proof.
  induction l as [|x l IH]; [constructor|]. intros H. apply andb_true_iff in H as (H1 & H2). constructor; [|auto].
  intros I. apply negb_true_iff in H1. assert (existsb (N.eqb x) l = true); [|congruence]. apply existsb_exists. exists x. split; [exact I|apply N.eqb_refl].
Qed.
(* no two options of a command share a name *)
Lemma tab_distinct c : distinct (tab c).
Proof. destruct c; (split; [apply NoDup_check|apply NoDup_checkN]; vm_compute; reflexivity). Qed.

Lemma split_word_gone w l : split_word w = Some l -> ~ In Gone l.
Proof.
  unfold split_word. intros H.
  repeat match type of H with
  | Some _ = Some _ => injection H as <-; intros I; cbn [In] in I; repeat destruct I as [I|I]; try discriminate I; assumption
  | None = Some _ => discriminate H
  | (match ?x with _ => _ end) = Some _ => destruct x
  end.
Qed.
Lemma items_gone ws l : items ws = Some l -> ~ In Gone l.
Proof.
  revert l. induction ws as [|w ws IH]; intros l; cbn [items]; [intros [= <-] []|].
  destruct (split_word w) as [a|] eqn:A; [|discriminate]. destruct (items ws) as [b|]; [|discriminate]. intros [= <-] I.
  apply in_app_iff in I as [I|I]; [exact (split_word_gone _ _ A I)|exact (IH _ eq_refl I)].
Qed.

(* one way to read a row *)
Lemma written_once T : distinct T -> forall o1 o2, Forall (proper T) o1 -> Forall (proper T) o2 -> flat_map written o1 = flat_map written o2 -> o1 = o2.
Proof.
  intros D. induction o1 as [|[s1 n1 v1] o1 IH]; intros [|[s2 n2 v2] o2] P1 P2 E; cbn [flat_map written oc_name oc_value app] in E; try reflexivity; try discriminate.
  inversion P1 as [|? ? (A1 & A2 & A3) Q1]; inversion P2 as [|? ? (B1 & B2 & B3) Q2]; subst; cbn in A1, A2, A3, B1, B2, B3. unfold written in E. cbn [oc_name oc_value app] in E. injection E as E0 E. subst n2.
  assert (s1 = s2) as <- by exact (named_same T s1 s2 n1 D A1 B1 A2 B2).
  destruct v1 as [w1|], v2 as [w2|]; cbn [app] in E.
  - injection E as -> E. f_equal. now apply IH.
  - assert (X : s_mult s1 = Switch) by now apply B3. apply A3 in X. discriminate.
  - assert (X : s_mult s1 = Switch) by now apply A3. apply B3 in X. discriminate.
  - f_equal. now apply IH.
Qed.

Section Props.
  Context (parse_ip : text -> option ipaddr) (parse_sa : text -> option saddr) (local4 local6 : option ipaddr).
  Notation reads := (reads parse_ip parse_sa local4 local6).
  Notation read_items := (read_items parse_ip parse_sa local4 local6).
  Notation read_fields := (read_fields parse_ip parse_sa local4 local6).
  Notation command_line := (command_line parse_ip parse_sa local4 local6).

  Lemma says_got T os a s : NoDup (map s_long T) -> Forall2 (fun s x => fst x = s_long s /\ means reads (s_mult s) (values s os) (snd x)) T a -> In s T ->
    exists vs, lookup leqb (s_long s) a = Some vs /\ means reads (s_mult s) (values s os) vs.
  Proof.
    intros ND F. induction F as [|s' [n vs] T a (A & B) F IH]; [intros []|]. cbn [map] in ND. apply NoDup_cons_iff in ND as (N1 & N2). cbn [fst snd] in A, B. subst n.
    intros [->|I]; cbn [lookup]; [rewrite leqb_refl; eauto|]. destruct (leqb (s_long s) (s_long s')) eqn:E; [|auto].
    apply leqb_ok in E. destruct N1. rewrite <- E. now apply in_map.
  Qed.
  Lemma field_of T os a n m : NoDup (map s_long T) -> Forall2 (fun s x => fst x = s_long s /\ means reads (s_mult s) (values s os) (snd x)) T a ->
    existsb (fun s => leqb (s_long s) (txt n)) T = true ->
    (forall s, In s T -> s_long s = txt n -> s_mult s = m) ->
    means reads m (given n os) (got a n).
  Proof.
    intros ND F E M. apply existsb_exists in E as (s & I & E). apply leqb_ok in E. destruct (says_got T os a s ND F I) as (vs & L & H).
    unfold got. rewrite <- E, L. rewrite (M s I E) in H. unfold values in H. rewrite E in H. exact H.
  Qed.
  (* the shapes of values *)
  Lemma rd_str w v : reads TStr w v -> exists x, v = VStr x.
  Proof. unfold OpProofs.reads; cbn [of_text]. intros [= <-]. eauto. Qed.
  Lemma rd_addr w v : reads TAddr w v -> exists x, v = VAddr x.
  Proof. unfold OpProofs.reads; cbn [of_text]. destruct (parse_one _ _ _ w); cbn [rbind]; try discriminate. intros [= <-]. eauto. Qed.
  Lemma rd_addrs w v : reads TAddrs w v -> exists x, v = VAddrs x.
  Proof. unfold OpProofs.reads; cbn [of_text]. destruct (parse_list _ _ _ w); cbn [rbind]; try discriminate. intros [= <-]. eauto. Qed.
  Lemma rd_dur w v : reads TDur w v -> exists x, v = VDur x.
  Proof. unfold OpProofs.reads; cbn [of_text]. destruct (parse_dur w); cbn [rbind]; try discriminate. intros [= <-]. eauto. Qed.
  Lemma rd_header w v : reads THeader w v -> exists x, v = VHeader x.
  Proof. unfold OpProofs.reads; cbn [of_text]. destruct (parse_header w); cbn [rbind]; try discriminate. intros [= <-]. eauto. Qed.
  Lemma rd_level w v : reads TLevel w v -> exists x, v = VLevel x.
  Proof. unfold OpProofs.reads; cbn [of_text]. destruct (or_err (parse_filter w)); cbn [rbind]; try discriminate. intros [= <-]. eauto. Qed.

  Lemma m_switch ws vs : means reads Switch ws vs -> means reads Switch ws [VBool (g_bool vs)].
  Proof. cbn [means]. intros [(-> & ->)|(-> & ->)]; auto. Qed.
  Lemma m_one_str ws vs : means reads (One TStr) ws vs -> means reads (One TStr) ws [VStr (g_str vs)].
  Proof. cbn [means]. intros (w & v & -> & R & ->). destruct (rd_str _ _ R) as (x & ->). exists w, (VStr x). auto. Qed.
  Lemma m_one_addr ws vs : means reads (One TAddr) ws vs -> means reads (One TAddr) ws [VAddr (g_addr vs)].
  Proof. cbn [means]. intros (w & v & -> & R & ->). destruct (rd_addr _ _ R) as (x & ->). exists w, (VAddr x). auto. Qed.
  Lemma m_may_str ws vs : means reads (May TStr) ws vs -> means reads (May TStr) ws (may VStr (o_str vs)).
  Proof. cbn [means]. intros [(-> & ->)|(w & v & -> & R & ->)]; [auto|]. destruct (rd_str _ _ R) as (x & ->). right. exists w, (VStr x). auto. Qed.
  Lemma m_may_addrs ws vs : means reads (May TAddrs) ws vs -> means reads (May TAddrs) ws (may VAddrs (o_addrs vs)).
  Proof. cbn [means]. intros [(-> & ->)|(w & v & -> & R & ->)]; [auto|]. destruct (rd_addrs _ _ R) as (x & ->). right. exists w, (VAddrs x). auto. Qed.
  Lemma m_may_dur ws vs : means reads (May TDur) ws vs -> means reads (May TDur) ws (may VDur (o_dur vs)).
  Proof. cbn [means]. intros [(-> & ->)|(w & v & -> & R & ->)]; [auto|]. destruct (rd_dur _ _ R) as (x & ->). right. exists w, (VDur x). auto. Qed.
  Lemma m_may_level ws vs : means reads (May TLevel) ws vs -> means reads (May TLevel) ws (may VLevel (OpModel.o_level vs)).
  Proof. cbn [means]. intros [(-> & ->)|(w & v & -> & R & ->)]; [auto|]. destruct (rd_level _ _ R) as (x & ->). right. exists w, (VLevel x). auto. Qed.
  Lemma m_or_str d ws vs : means reads (Or TStr (VStr d)) ws vs -> means reads (Or TStr (VStr d)) ws [VStr (g_str vs)].
  Proof. cbn [means]. intros [(-> & ->)|(w & v & -> & R & ->)]; [auto|]. destruct (rd_str _ _ R) as (x & ->). right. exists w, (VStr x). auto. Qed.
  Lemma m_or_addr d ws vs : means reads (Or TAddr (VAddr d)) ws vs -> means reads (Or TAddr (VAddr d)) ws [VAddr (g_addr vs)].
  Proof. cbn [means]. intros [(-> & ->)|(w & v & -> & R & ->)]; [auto|]. destruct (rd_addr _ _ R) as (x & ->). right. exists w, (VAddr x). auto. Qed.
  Lemma m_or_addrs d ws vs : means reads (Or TAddrs (VAddrs d)) ws vs -> means reads (Or TAddrs (VAddrs d)) ws [VAddrs (g_addrs vs)].
  Proof. cbn [means]. intros [(-> & ->)|(w & v & -> & R & ->)]; [auto|]. destruct (rd_addrs _ _ R) as (x & ->). right. exists w, (VAddrs x). auto. Qed.
  Lemma m_many_str ws vs : means reads (Many TStr) ws vs -> means reads (Many TStr) ws (map VStr (m_str vs)).
  Proof. cbn [means]. induction 1 as [|o v ws vs (w & -> & R) F IH]; cbn; [constructor|]. destruct (rd_str _ _ R) as (x & ->). cbn. constructor; [eauto|exact IH]. Qed.
  Lemma m_many_header ws vs : means reads (Many THeader) ws vs -> means reads (Many THeader) ws (map VHeader (m_header vs)).
  Proof. cbn [means]. induction 1 as [|o v ws vs (w & -> & R) F IH]; cbn; [constructor|]. destruct (rd_header _ _ R) as (x & ->). cbn. constructor; [eauto|exact IH]. Qed.

  Ltac fld := match goal with F : Forall2 _ (tab ?c) _ |- _ => eapply field_of; [exact (proj1 (tab_distinct c))|exact F|vm_compute; reflexivity|
    let s := fresh in let I := fresh in intros s I; cbn [tab own_tab app] in I; revert I;
    repeat (intros [<-|I]; [first [intros _; reflexivity|intros X; exfalso; revert X; vm_compute; discriminate]|revert I]); intros []] end.

  Lemma shared_ok c os a : Forall2 (fun s x => fst x = s_long s /\ means reads (s_mult s) (values s os) (snd x)) (tab c) a -> shared_by reads os (shared_of a).
  Proof.
    intros F. unfold shared_by, shared_of. cbn [sh_control sh_no_stdout sh_no_control sh_daemon sh_forever sh_verbose sh_level sh_pid].
    assert (K : forall n m, existsb (fun s => leqb (s_long s) (txt n)) shared_tab = true ->
       (forallb (fun s => negb (leqb (s_long s) (txt n))) (own_tab c) = true) ->
       (forall s, In s shared_tab -> s_long s = txt n -> s_mult s = m) -> means reads m (given n os) (got a n)).
    { intros n m E O M. eapply field_of; [exact (proj1 (tab_distinct c))|exact F| |].
      - unfold tab. rewrite existsb_app, E. apply orb_true_r.
      - intros s I L. unfold tab in I. apply in_app_iff in I as [I|I]; [|exact (M s I L)]. rewrite forallb_forall in O. apply O in I. rewrite L, leqb_refl in I. discriminate. }
    Ltac sh K := eapply K; [vm_compute; reflexivity|match goal with |- forallb _ (own_tab ?c) = _ => destruct c; vm_compute; reflexivity end|
      let s := fresh in let I := fresh in intros s I; unfold shared_tab in I; revert I;
      repeat (intros [<-|I]; [first [intros _; reflexivity|intros X; exfalso; revert X; vm_compute; discriminate]|revert I]); intros []].
    split; [apply m_or_addr; sh K|]. split; [apply m_switch; sh K|]. split; [apply m_switch; sh K|]. split; [apply m_switch; sh K|].
    split; [apply m_switch; sh K|]. split; [apply m_switch; sh K|]. split; [apply m_may_level; sh K|]. apply m_or_str; sh K.
  Qed.
  Lemma command_ok c os a : Forall2 (fun s x => fst x = s_long s /\ means reads (s_mult s) (values s os) (snd x)) (tab c) a -> command_by reads os (command_of c a).
  Proof.
    intros F. destruct c; cbn [command_of command_by]; auto.
    - unfold proxy_by, proxy_settings. repeat (apply Forall_cons; [cbn [fst snd]; fld|]). apply Forall_nil.
    - apply m_one_str. fld.
    - split; apply m_may_str; fld.
    - split; apply m_may_str; fld.
    - apply m_one_str. fld.
    - cbn [fa_root fa_listen fa_ssl fa_cert fa_key fa_domain fa_browse fa_robots fa_404 fa_cache fa_types fa_cors fa_headers fa_log].
      split; [apply m_or_str; fld|]. split; [apply m_or_addrs; fld|]. split; [apply m_may_addrs; fld|].
      split; [apply m_may_str; fld|]. split; [apply m_may_str; fld|]. split; [apply m_may_str; fld|]. split; [apply m_switch; fld|].
      split; [apply m_may_str; fld|]. split; [apply m_may_str; fld|].
      split; [exists (o_dur (got a "cache-time")); split; [apply m_may_dur; fld|reflexivity]|].
      split; [apply m_many_str; fld|]. split; [apply m_switch; fld|]. split; [apply m_many_header; fld|]. apply m_may_str; fld.
    - cbn [ra_from ra_to ra_headers ra_log ra_tls ra_ws].
      split; [apply m_or_addrs; fld|]. split; [apply m_one_addr; fld|]. split; [apply m_many_header; fld|]. split; [apply m_may_str; fld|]. split; apply m_switch; fld.
    - cbn [wa_from wa_to wa_log wa_mode wa_domain wa_ws].
      split; [apply m_or_addrs; fld|]. split; [apply m_one_addr; fld|]. split; [apply m_may_str; fld|]. split; [apply m_one_str; fld|]. split; [apply m_may_str; fld|]. apply m_switch; fld.
  Qed.
End Props.
