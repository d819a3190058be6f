(* C96, C97: HTTP visitors at the tunnel server. *)
From Coq Require Import String.
From Verif Require Import Base Text TextOps ProtModel ConfModel CsModel TransModel TransSpec TransProofs.
Open Scope N_scope.

(* C96, full statement: every request on a visitor's connection is served by the
   mapping that owns its Host at that moment, with that mapping's header rules.
   The first request is: a stream named by the Host is opened (the name the tunnel
   model CsModel uses), the request goes out under the rules of the owner, and so
   does the answer come back ... *)
Theorem C96_first_request : forall same conv s ms regs host h back m,
  Forall is_reg regs -> owns (now ms regs) (host_of host) m ->
  snd (tstep same conv s (fst (trun same conv s (t_init ms) regs)) (TReq host h back)) =
    TCreate s (host_of host) :: served same conv m h back /\
  visit_domain (now ms regs) (VHttp (host_of host)) = Some (host_of host).
Proof.
  intros same conv s ms regs host h back m Hr Ho. rewrite (first_choice same conv s ms regs host h back m Hr Ho).
  split; [reflexivity|]. cbn [visit_domain]. rewrite (owns_last _ _ _ Ho). reflexivity.
Qed.
(* ... and so is every later request for the same Host, as long as the mappings
   have not changed; a connection never opens a second stream. *)
Theorem C96_same_host_partial : forall same conv s ms regs host h1 back1 m es h back,
  Forall is_reg regs -> owns (now ms regs) (host_of host) m -> back1 <> BGone -> Forall lives es ->
  owns (now ms (regs ++ TReq host h1 back1 :: es)) (host_of host) m ->
  snd (tstep same conv s (fst (trun same conv s (t_init ms) (regs ++ TReq host h1 back1 :: es))) (TReq host h back)) =
    served same conv m h back.
Proof. intros. eapply later_request; eassumption. Qed.
Theorem C96_one_stream : forall same conv s ms es,
  (length (opens (List.concat (snd (trun same conv s (t_init ms) es)))) <= 1)%nat.
Proof. intros. apply one_stream. Qed.
(* Other requests are not: whoever owns the Host of a later request, it goes to the
   mapping of the first request, under the rules that mapping had then. *)
Theorem C96_other_host_refuted : forall same conv s ms regs host1 h1 back1 m es host h back m',
  Forall is_reg regs -> owns (now ms regs) (host_of host1) m -> back1 <> BGone -> Forall lives es ->
  owns (now ms (regs ++ TReq host1 h1 back1 :: es)) (host_of host) m' -> m' <> m ->
  snd (tstep same conv s (fst (trun same conv s (t_init ms) (regs ++ TReq host1 h1 back1 :: es))) (TReq host h back)) =
    served same conv m h back.
Proof. intros. eapply later_request; eassumption. Qed.
(* When the tunnelled connection is gone, the visitor's connection is closed and nothing more
   is done on it. *)
Lemma dead_stays same conv s es : forall st, t_dead st = true -> List.concat (snd (trun same conv s st es)) = [].
Proof.
  induction es as [|e es IH]; intros st H; [reflexivity|]. cbn [trun]. destruct e as [ms|host h back]; cbn [tstep].
  - assert (Q := IH (TSt (t_first st) (t_map st) ms (t_dead st)) H). destruct (trun same conv s _ es). exact Q.
  - rewrite H. assert (Q := IH st H). destruct (trun same conv s st es). exact Q.
Qed.
Lemma closed_dead same conv s st e : In TClosed (snd (tstep same conv s st e)) -> t_dead (fst (tstep same conv s st e)) = true.
Proof.
  destruct e as [ms|host h back]; cbn [tstep]; [intros []|]. destruct (t_dead st) eqn:D; [intros []|].
  destruct (t_first st); [destruct (last_match _ _ _) as [m|]|]; try destruct (t_map st) as [m|]; destruct back; cbn; intuition discriminate.
Qed.
Theorem C96_closed : forall same conv s ms es later, In TClosed (List.concat (snd (trun same conv s (t_init ms) es))) ->
  List.concat (snd (trun same conv s (t_init ms) (es ++ later))) = List.concat (snd (trun same conv s (t_init ms) es)) /\
  exists before host h regs, es = before ++ TReq host h BGone :: regs /\
    List.concat (snd (trun same conv s (t_init ms) es)) = List.concat (snd (trun same conv s (t_init ms) before)) ++ snd (tstep same conv s (fst (trun same conv s (t_init ms) before)) (TReq host h BGone)).
Proof.
  intros same conv s ms es later. generalize (t_init ms) as st. induction es as [|e es IH]; intros st H; [destruct H|]. cbn [trun app] in *.
  assert (CD := closed_dead same conv s st e). destruct (tstep same conv s st e) as [st1 o] eqn:E. cbn [fst snd] in CD.
  destruct (in_dec (fun x y : bool => Bool.bool_dec x y) true (map (fun x => match x with TClosed => true | _ => false end) o)) as [I|I].
  - apply in_map_iff in I as (x & X & I). destruct x; try discriminate X. specialize (CD I).
    assert (Q1 := dead_stays same conv s es st1 CD). assert (Q2 := dead_stays same conv s (es ++ later) st1 CD).
    destruct (trun same conv s st1 es) as [st2 os]. destruct (trun same conv s st1 (es ++ later)) as [st3 os3]. cbn [fst snd List.concat] in *. rewrite Q1, Q2. split; [reflexivity|].
    destruct e as [ms'|host h back]; [cbn [tstep] in E; injection E as <- <-; destruct I|].
    assert (back = BGone). { cbn [tstep] in E. destruct (t_dead st); [injection E as <- <-; destruct I|]. destruct back; [reflexivity| |]; exfalso;
      (destruct (t_first st); [destruct (last_match _ _ _) as [m|]|]; try destruct (t_map st) as [m|]; cbn [tforward] in E; injection E as <- <-; cbn in I; intuition discriminate). }
    subst back. exists [], host, h, es. split; [reflexivity|]. cbn [trun fst snd List.concat app]. rewrite E. cbn [snd]. now rewrite app_nil_r.
  - specialize (IH st1). destruct (trun same conv s st1 es) as [st2 os]. destruct (trun same conv s st1 (es ++ later)) as [st3 os3]. cbn [fst snd List.concat] in *.
    destruct IH as (A & before & host & h & regs & B & C).
    { apply in_app_or in H as [H|H]; [|exact H]. exfalso. apply I. apply in_map_iff. exists TClosed. split; [reflexivity|exact H]. }
    rewrite A. split; [reflexivity|]. exists (e :: before), host, h, regs. split; [rewrite B; reflexivity|]. cbn [trun]. rewrite E.
    destruct (trun same conv s st1 before) as [st4 os4]. cbn [fst snd List.concat] in *. rewrite C. apply app_assoc.
Qed.
Example C96_closed_case : let m := Mapping (txt "a") (txt "http") None (txt "x.com") [] in
  List.concat (snd (trun leqb (fun v => v) 7 (t_init [m]) [TReq (Some (txt "x.com")) [] BGone; TReq (Some (txt "x.com")) [] BNone])) = [TCreate 7 (txt "x.com"); TClosed].
Proof. vm_compute. reflexivity. Qed.
Print Assumptions C96_closed.
Print Assumptions C96_first_request.
Print Assumptions C96_same_host_partial.
Print Assumptions C96_one_stream.
Print Assumptions C96_other_host_refuted.

Definition site_a : mapping := Mapping (txt "a") (txt "http") None (txt "a.com") [HRule HAdd true (txt "x-from") (txt "a")].
Definition site_b : mapping := Mapping (txt "b") (txt "http") None (txt "b.com") [HRule HAdd true (txt "x-from") (txt "b")].
Definition ab : list mapping := [site_a; site_b].
Example C96_demo :
  owns ab (txt "a.com") site_a /\ owns ab (txt "b.com") site_b /\ site_a <> site_b /\
  snd (trun leqb (fun v => v) 7 (t_init [])
    [TReg ab; TReq (Some (txt "a.com")) [] (BResp 200 []); TReq (Some (txt "b.com")) [(txt "k", txt "v")] (BResp 404 [])]) =
  [[]; [TCreate 7 (txt "a.com"); TSent [(txt "x-from", txt "a")]; TAnswer 200 []];
   [TSent [(txt "k", txt "v"); (txt "x-from", txt "a")]; TAnswer 404 []]].
Proof.
  split; [exists [], [site_b]; split; [reflexivity|split; [reflexivity|constructor; [discriminate|constructor]]]|].
  split; [exists [site_a], []; split; [reflexivity|split; [reflexivity|constructor]]|].
  split; [discriminate|]. vm_compute. reflexivity.
Qed.

(* C97, full statement: a request for a Host nobody owns opens no stream and is
   answered as not found; a request for a Host somebody owns is served.  The first
   half holds of the first request on a connection ... *)
Theorem C97_unknown_host_partial : forall same conv s ms regs host h back,
  Forall is_reg regs -> unknown (now ms regs) (host_of host) ->
  snd (tstep same conv s (fst (trun same conv s (t_init ms) regs)) (TReq host h back)) = [not_found].
Proof. intros same conv s ms regs host h back Hr Ho. rewrite (first_unknown same conv s ms regs host h back Hr Ho). reflexivity. Qed.
(* ... but afterwards no request on that connection is ever served, whatever its
   Host and whatever is registered by then ... *)
Theorem C97_sticks_refuted : forall same conv s ms regs host1 h1 back1 es host h back,
  Forall is_reg regs -> unknown (now ms regs) (host_of host1) ->
  snd (tstep same conv s (fst (trun same conv s (t_init ms) (regs ++ TReq host1 h1 back1 :: es))) (TReq host h back)) = [not_found].
Proof.
  intros same conv s ms regs host1 h1 back1 es host h back Hr Hu. rewrite trun_app. cbn [fst].
  change (TReq host1 h1 back1 :: es) with ([TReq host1 h1 back1] ++ es).
  rewrite trun_app, trun_one. cbn [fst]. rewrite (first_unknown same conv s _ _ _ _ _ Hr Hu). cbn [fst].
  destruct (lost_stays same conv s es (TSt false None (now ms regs) false)) as (A & B & C); try reflexivity.
  cbn [tstep]. rewrite A, B, C. reflexivity.
Qed.
(* ... and the answer says success: its status is 200, as is the answer when the
   local service gave none. *)
Theorem C97_status_refuted : forall same conv s ms regs host h back,
  Forall is_reg regs -> unknown (now ms regs) (host_of host) \/ back = BNone ->
  exists o hd, snd (tstep same conv s (fst (trun same conv s (t_init ms) regs)) (TReq host h back)) = o ++ [TAnswer 200 hd].
Proof.
  intros same conv s ms regs host h back Hr [Hu| ->].
  - rewrite (first_unknown same conv s ms regs host h back Hr Hu). exists []. eexists. reflexivity.
  - destruct (last_match (fun m => leqb (m_domain m) (host_of host)) (now ms regs) None) as [m|] eqn:E.
    + rewrite (first_choice same conv s ms regs host h BNone m Hr (last_owns _ _ _ E)). cbn [snd served].
      exists [TCreate s (host_of host); TSent (ruled same conv true (m_headers m) h)]. eexists. reflexivity.
    + rewrite (first_unknown same conv s ms regs host h BNone Hr (last_unknown _ _ E)). exists []. eexists. reflexivity.
Qed.
Print Assumptions C97_unknown_host_partial.
Print Assumptions C97_sticks_refuted.
Print Assumptions C97_status_refuted.
Example C97_demo : unknown ab (txt "c.com") /\
  snd (trun leqb (fun v => v) 7 (t_init ab)
    [TReq (Some (txt "c.com")) [] BNone; TReq (Some (txt "a.com")) [] (BResp 204 [])]) = [[not_found]; [not_found]].
Proof. split; [repeat (constructor; [discriminate|]); constructor|vm_compute; reflexivity]. Qed.
