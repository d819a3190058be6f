(* The requests of one connection: C135 to C137. *)
From Coq Require Import String.
From Verif Require Import Base Text TextOps ConfModel AddrModel RouteModel RouteSpec RouteProofs RouteProps SiteModel.
Open Scope N_scope.

Section Own.
  Context {W : Type} (regex : text -> option (text -> bool)) (parse_ip : text -> option ipaddr)
          (fmt : request -> text -> text)
          (limit : lreq -> text -> W -> limres * W)
          (serve : location -> request -> W -> res unit (N * bool) * W)
          (rehost : location -> request -> W -> option text)
          (closed : key -> W -> bool)
          (reuse : key -> request -> W -> option (res unit N) * W)
          (same_key : key -> key -> bool).
  Notation connection := (@connection W regex parse_ip fmt limit serve rehost closed reuse same_key).
  Notation one_request := (@one_request W regex parse_ip fmt limit serve rehost closed reuse same_key).
  Notation first_holds := (first_holds regex parse_ip).
  (* same_key is an equality *)
  Definition equality : Prop := (forall a, same_key a a = true) /\ (forall a b c, same_key a b = true -> same_key b c = true -> same_key a c = true).

  Definition known (servers : list server) (k : key) (o : owner) : Prop :=
    k = loc_key (snd o) /\ In (fst o) servers /\ In (snd o) (s_locs (fst o)).
  (* a use of a kept connection by a site: under the key of one of its locations, over a
     connection opened by a location with an equal key *)
  Definition fair (servers : list server) (u : server * key * option owner) : Prop :=
    exists l o, In (fst (fst u)) servers /\ In l (s_locs (fst (fst u))) /\ snd (fst u) = loc_key l /\ snd u = Some o /\
      known servers (loc_key (snd o)) o /\ same_key (loc_key l) (loc_key (snd o)) = true.
  Definition good (servers : list server) (cache : list key) (p : pool (W := W)) : Prop :=
    (forall x, In x cache -> exists e, In e (p_kept p) /\ same_key x (fst e) = true) /\
    Forall (fun e => known servers (fst e) (snd e)) (p_kept p) /\ Forall (fair servers) (p_used p).

  Lemma find_kept_some (E : equality) servers cache p l : good servers cache p -> cached same_key (loc_key l) cache = true ->
    exists o, find_kept same_key (loc_key l) (p_kept p) = Some o /\ known servers (loc_key (snd o)) o /\ same_key (loc_key l) (loc_key (snd o)) = true.
  Proof.
    intros (G1 & G2 & _) C. unfold cached in C. apply existsb_exists in C as (x & Ix & Ex). destruct (G1 x Ix) as (e & Ie & Ee).
    unfold find_kept. destruct (find (fun e => same_key (loc_key l) (fst e)) (p_kept p)) as [e'|] eqn:F.
    - apply find_some in F as [I F]. rewrite Forall_forall in G2. specialize (G2 e' I). exists (snd e'). split; [reflexivity|].
      destruct G2 as (K & A & B). rewrite K in F. split; [split; [reflexivity|]; split; assumption|exact F].
    - exfalso. assert (X := find_none _ _ F e Ie). cbn in X. rewrite (proj2 E _ _ _ Ex Ee) in X. discriminate.
  Qed.
  Lemma good_request (E : equality) servers r cache p s a : good servers cache p -> one_request servers r cache p = Some (s, a) ->
    good servers (t_cache s) (t_world s).
  Proof.
    intros G H. unfold SiteModel.one_request in H. destruct (pick_server servers (host_of r)) as [sv|] eqn:Ep.
    2:{ injection H as <- _. exact G. }
    assert (Isv : In sv servers).
    { apply pick_selected in Ep. destruct Ep as (pre & post & -> & _). apply in_app_iff. right. left. reflexivity. }
    unfold operate in H. rewrite Ep in H. revert H.
    apply (deal_inv regex parse_ip fmt _ _ _ _ _ _ (s_locs sv) r (fun s => good servers (t_cache s) (t_world s))); [| | | |exact G|reflexivity]; clear s a G.
    - intros s q H _. exact H.
    - intros s w H A. cbn. destruct A as [->|(lr & ip & x & A)]; [exact H|]. unfold limit_of in A.
      destruct (limit lr ip (p_world (t_world s))) as [y w0]. injection A as <- <-. exact H.
    - intros s i l H _ _ _. exact H.
    - intros s i l G F _. unfold handle. cbn [t_cache with_deals t_world with_cache t_path t_host].
      assert (Il : In l (s_locs sv)) by (eapply nth_error_In; apply F).
      destruct (cached same_key (loc_key l) (t_cache s)) eqn:C.
      + destruct (find_kept_some E _ _ _ _ G C) as (o & Fo & Ko & So).
        assert (U : forall x, In x (uncache same_key (loc_key l) (t_cache s)) -> In x (t_cache s)) by (intros x Hx; apply filter_In in Hx; apply Hx).
        destruct (closed_of closed (loc_key l) (t_world s)); cbn [fst].
        { destruct G as (G1 & G2 & G3). split; [intros x Hx; apply G1, U, Hx|]. split; assumption. }
        unfold reuse_of. destruct (reuse (loc_key l) _ _) as [z w]. cbn [t_cache with_world event t_world].
        assert (G' : good servers (uncache same_key (loc_key l) (t_cache s)) (Pool (p_kept (t_world s)) (p_used (t_world s) ++ [(sv, loc_key l, find_kept same_key (loc_key l) (p_kept (t_world s)))]) w)).
        { destruct G as (G1 & G2 & G3). split; [intros x Hx; apply G1, U, Hx|]. split; [exact G2|]. cbn [p_used]. apply Forall_app. split; [exact G3|].
          constructor; [|constructor]. exists l, o. cbn [fst snd]. rewrite Fo. repeat split; try assumption; apply Ko. }
        destruct z as [[c| |]|]; cbn [fst with_cache t_cache t_world]; try exact G'.
        destruct G' as (G1 & G2 & G3). split; [|split; assumption]. intros x [<-|Hx]; [|apply G1, Hx].
        unfold find_kept in Fo. destruct (find (fun e => same_key (loc_key l) (fst e)) (p_kept (t_world s))) as [e|] eqn:Fe; [|discriminate].
        apply find_some in Fe. exists e. exact Fe.
      + unfold serve_of. destruct (serve l _ _) as [[[c []]| |] w]; cbn [fst with_cache t_cache t_world with_world event]; destruct G as (G1 & G2 & G3); (split; [|split; [|exact G3]]); cbn [p_kept];
          try exact G1; try exact G2.
        * intros x [<-|Hx]; [exists (loc_key l, (sv, l)); split; [left; reflexivity|apply E]|]. destruct (G1 x Hx) as (e & Ie & Ee). exists e. split; [right; exact Ie|exact Ee].
        * constructor; [|exact G2]. split; [reflexivity|]. split; assumption.
  Qed.
  Lemma good_connection (E : equality) servers : forall rs cache p, good servers cache p -> Forall (fair servers) (p_used (snd (connection servers rs cache p))).
  Proof.
    induction rs as [|r rs IH]; intros cache p G; [apply G|]. cbn [SiteModel.connection].
    destruct (one_request servers r cache p) as [[s a]|] eqn:H; [|apply G].
    assert (G' := good_request E _ _ _ _ _ _ G H). specialize (IH _ _ G').
    destruct a as [a|e|]; [| |apply G']; destruct (connection servers rs (t_cache s) (t_world s)); exact IH.
  Qed.

  (* C135, full statement: a request that goes over a kept backend connection goes over one
     that was opened for the same location of the same site.  Proved: it was opened for a
     location with the same rule, up_name and method ... *)
  Theorem C135_same_rule_partial : forall servers rs w ans p, equality -> connection servers rs [] (Pool [] [] w) = (ans, p) ->
    forall sv k o, In (sv, k, o) (p_used p) ->
    exists l sv' l', In sv servers /\ In l (s_locs sv) /\ k = loc_key l /\ o = Some (sv', l') /\
      In sv' servers /\ In l' (s_locs sv') /\ same_key (loc_key l) (loc_key l') = true.
  Proof.
    intros servers rs w ans p E H sv k o I.
    assert (F := good_connection E servers rs [] (Pool [] [] w)). rewrite H in F. cbn [snd] in F. rewrite Forall_forall in F.
    destruct (F (conj (fun x (b : In x []) => match b with end) (conj (Forall_nil _) (Forall_nil _))) _ I) as (l & [sv' l'] & A & B & C & D & (_ & K1 & K2) & S0).
    cbn [fst snd] in *. exists l, sv', l'. subst. repeat split; assumption.
  Qed.
  (* ... so it holds where no two locations have the same rule, up_name and method ... *)
  Theorem C135_own_partial : forall servers rs w ans p, equality ->
    (forall s1 l1 s2 l2, In s1 servers -> In l1 (s_locs s1) -> In s2 servers -> In l2 (s_locs s2) ->
       same_key (loc_key l1) (loc_key l2) = true -> s1 = s2 /\ l1 = l2) ->
    connection servers rs [] (Pool [] [] w) = (ans, p) ->
    forall sv k o, In (sv, k, o) (p_used p) -> exists l, In l (s_locs sv) /\ k = loc_key l /\ o = Some (sv, l).
  Proof.
    intros servers rs w ans p E D H sv k o I.
    destruct (C135_same_rule_partial _ _ _ _ _ E H _ _ _ I) as (l & sv' & l' & A & B & C & F & G & K & S0).
    destruct (D _ _ _ _ A B G K S0) as [<- <-]. exists l. auto.
  Qed.
  (* ... but on one connection a request for a second site goes over the connection that a
     request for the first site opened, if the rules of their locations are the same. *)
  Theorem C135_other_site_refuted : forall servers sv1 sv2 r1 r2 i1 l1 i2 l2 w c1 w1 c2 w2, equality ->
    selected servers (requested_host r1) sv1 -> selected servers (requested_host r2) sv2 ->
    first_holds (s_locs sv1) (r_path r1) r1 i1 l1 -> first_holds (s_locs sv2) (r_path r2) r2 i2 l2 ->
    l_limit l1 = None -> l_allow l1 = None -> l_deny l1 = None -> l_try l1 = None ->
    l_limit l2 = None -> l_allow l2 = None -> l_deny l2 = None -> l_try l2 = None ->
    same_key (loc_key l2) (loc_key l1) = true ->
    serve l1 r1 w = (Ok (c1, true), w1) -> closed (loc_key l2) w1 = false -> reuse (loc_key l2) r2 w1 = (Some (Ok c2), w2) ->
    exists p, connection servers [r1; r2] [] (Pool [] [] w) = ([Ok (Answer c1 (FromServe i1)); Ok (Answer c2 (FromReuse i2))], p) /\
      p_used p = [(sv2, loc_key l2, Some (sv1, l1))].
  Proof.
    intros servers sv1 sv2 r1 r2 i1 l1 i2 l2 w c1 w1 c2 w2 E S1 S2 F1 F2 A1 A2 A3 A4 B1 B2 B3 B4 K V1 V2 V3.
    assert (P : forall r sv, selected servers (requested_host r) sv -> pick_server servers (host_of r) = Some sv).
    { intros r sv S0. destruct (pick_server servers (host_of r)) as [x|] eqn:E0.
      - f_equal. eapply selected_unique; [apply pick_selected; exact E0|exact S0].
      - apply pick_none in E0. destruct S0 as (pre & post & -> & _). destruct pre; discriminate. }
    assert (Fi : forall sv r i l, first_holds (s_locs sv) (r_path r) r i l -> find_loc regex parse_ip 0 (s_locs sv) [] (r_path r) (set_req_path r (r_path r)) = Some (i, l)).
    { intros sv r i l F. assert (F' := find_first regex parse_ip (s_locs sv) (r_path r) (r_path r) r).
      destruct (find_loc regex parse_ip 0 (s_locs sv) [] (r_path r) (set_req_path r (r_path r))) as [[i' l']|].
      - destruct (first_unique _ _ _ _ _ _ _ _ _ F F') as [<- <-]. reflexivity.
      - exfalso. destruct F as (X1 & X2 & _). apply (F' l); [eapply nth_error_In; exact X1|exact X2]. }
    assert (Rp : forall r, set_req_path r (r_path r) = r) by (intros []; reflexivity).
    cbn [SiteModel.connection]. unfold SiteModel.one_request. rewrite (P _ _ S1). unfold operate. rewrite (P _ _ S1). unfold depth. cbn [deal t_deals t_path t_host].
    rewrite !set_host_same, (Fi _ _ _ _ F1). unfold do_limit, ip_gate. rewrite A1, A2, A3, A4. cbn beta iota zeta. unfold handle.
    cbn [t_cache with_deals t_world t_path t_host cached existsb]. rewrite !set_host_same, Rp. unfold serve_of at 1. cbn [p_world]. rewrite V1.
    cbn [fst snd with_cache t_cache t_world event with_world with_deals].
    rewrite (P _ _ S2). rewrite ?set_host_same, (Fi _ _ _ _ F2). rewrite B1, B2, B3, B4. cbn beta iota zeta.
    cbn [t_cache with_deals t_world t_path cached existsb]. rewrite K. cbn [orb]. unfold closed_of. cbn [p_world with_cache t_world]. rewrite V2.
    cbn [p_world t_world with_cache t_host with_deals t_path]. rewrite ?set_host_same, Rp. unfold reuse_of. cbn [p_world t_world with_cache t_path]. rewrite V3.
    cbn [fst snd with_cache t_cache t_world event with_world p_used p_kept app]. eexists. split; [reflexivity|].
    cbn [p_used]. unfold find_kept. cbn [find fst]. rewrite K. reflexivity.
  Qed.
End Own.
(* The requests of a connection are answered one after another as RouteModel answers a
   single request (C29, C31), each in the state the one before left. *)
Section Answers.
  Context {W : Type} (regex : text -> option (text -> bool)) (parse_ip : text -> option ipaddr)
          (fmt : request -> text -> text)
          (limit : lreq -> text -> W -> limres * W)
          (serve : location -> request -> W -> res unit (N * bool) * W)
          (rehost : location -> request -> W -> option text)
          (closed : key -> W -> bool)
          (reuse : key -> request -> W -> option (res unit N) * W)
          (same_key : key -> key -> bool).
  Notation connection := (@connection W regex parse_ip fmt limit serve rehost closed reuse same_key).
  Notation operate1 := (@operate W regex parse_ip fmt limit serve rehost closed reuse same_key).
  (* the same state, seen without the records kept for the statements *)
  Definition plain (s : st (W := pool (W := W))) : st (W := W) := St (t_path s) (t_host s) (t_deals s) (t_tried s) (t_cache s) (p_world (t_world s)) (t_trace s).
  Definition plain_res (o : option (st (W := pool (W := W)) * res unit answer)) : option (st (W := W) * res unit answer) :=
    match o with Some (s, a) => Some (plain s, a) | None => None end.
  Lemma limit_plain l r s : do_limit limit l r (plain s) = let (x, s') := do_limit (limit_of limit) l r s in (x, plain s').
  Proof. unfold do_limit, limit_of. destruct (l_limit l); [|reflexivity]. destruct (r_ip r); [|reflexivity]. cbn [plain t_world]. destruct (limit _ _ _). reflexivity. Qed.
  Lemma handle_plain sv now l r s :
    handle serve rehost closed reuse same_key now l r (plain s) =
    let (s', a) := handle (serve_of serve sv) (fun l r p => rehost l r (p_world p)) (closed_of closed) (reuse_of reuse same_key sv) same_key now l r s in (plain s', a).
  Proof.
    unfold handle, closed_of, serve_of, reuse_of. cbn [plain with_deals with_cache t_cache t_world t_path t_host].
    destruct (cached same_key (loc_key l) (t_cache s)).
    - destruct (closed _ _); [reflexivity|]. destruct (reuse _ _ _) as [[[c| |]|] w]; reflexivity.
    - destruct (serve _ _ _) as [[[c []]| |] w]; reflexivity.
  Qed.
  Lemma try_plain rec rec' r ori fail vals : (forall s, rec' (plain s) = plain_res (rec s)) ->
    forall s, try_all fmt rec' r ori fail vals (plain s) = plain_res (try_all fmt rec r ori fail vals s).
  Proof.
    intro H. induction vals as [|v vals IH]; intro s; [reflexivity|]. cbn [try_all].
    change (with_path (fmt (set_req_path (set_host r (t_host (plain s))) ori) v) (with_deals [] (plain s))) with (plain (with_path (fmt (set_req_path (set_host r (t_host s)) ori) v) (with_deals [] s))).
    rewrite H. destruct (rec _) as [[s' [a| |]]|]; cbn [plain_res]; [|apply IH|reflexivity|reflexivity]. destruct (is_error (a_status a)); [apply IH|reflexivity].
  Qed.
  Lemma deal_plain sv f : forall locs r s,
    deal regex parse_ip fmt limit serve rehost closed reuse same_key f locs r (plain s) =
    plain_res (deal regex parse_ip fmt (limit_of limit) (serve_of serve sv) (fun l r p => rehost l r (p_world p)) (closed_of closed) (reuse_of reuse same_key sv) same_key f locs r s).
  Proof.
    induction f as [|f IH]; intros locs r s; [reflexivity|]. cbn [deal]. cbn [plain t_deals t_path t_host].
    destruct (find_loc _ _ _ _ _ _ _) as [[now l]|]; [|reflexivity]. fold (plain s). rewrite limit_plain. destruct (do_limit (limit_of limit) l r s) as [x s1].
    destruct x; [|reflexivity|reflexivity]. destruct (ip_gate parse_ip l r) as [[]| |]; try reflexivity.
    destruct (l_try l) as [[vals fail]|].
    - cbn [plain t_tried]. destruct (mem_nat now (t_tried s1)).
      + fold (plain s1). rewrite (handle_plain sv). destruct (handle (serve_of serve sv) _ _ _ _ _ _ _ s1). reflexivity.
      + fold (plain s1). change (event (EvTry now) (with_tried (now :: t_tried s1) (plain s1))) with (plain (event (EvTry now) (with_tried (now :: t_tried s1) s1))).
        apply try_plain. intro s2. apply IH.
    - rewrite (handle_plain sv). destruct (handle (serve_of serve sv) _ _ _ _ _ _ _ s1). reflexivity.
  Qed.
  (* every request of a connection has an answer that RouteModel gives for it *)
  Fixpoint answered (servers : list server) (rs : list request) (cache : list key) (w : W) (ans : list (res unit answer)) (w' : W) : Prop :=
    match rs, ans with
    | [], [] => w' = w
    | r :: rs', a :: ans' => exists s, operate1 servers r cache w = Some (s, a) /\
        match a with Panic => ans' = [] /\ w' = t_world s | _ => answered servers rs' (t_cache s) (t_world s) ans' w' end
    | _, _ => False
    end.
  Theorem C135_answers : forall servers rs cache p ans q, connection servers rs cache p = (ans, q) ->
    answered servers rs cache (p_world p) ans (p_world q).
  Proof.
    intros servers rs. induction rs as [|r rs IH]; intros cache p ans q H; cbn [SiteModel.connection] in H; [injection H as <- <-; reflexivity|].
    assert (E : operate1 servers r cache (p_world p) = plain_res (one_request regex parse_ip fmt limit serve rehost closed reuse same_key servers r cache p)).
    { unfold one_request, operate. destruct (pick_server servers (host_of r)) as [sv|]; [|reflexivity].
      exact (deal_plain sv (depth (s_locs sv)) (s_locs sv) r (St (r_path r) (r_host r) [] [] cache p [])). }
    destruct (C31_terminates regex parse_ip fmt limit serve rehost closed reuse same_key servers r cache (p_world p)) as (s0 & a0 & T & _).
    destruct (one_request _ _ _ _ _ _ _ _ _ servers r cache p) as [[s a]|]; cbn [plain_res] in E; [|congruence].
    destruct a as [a|u|].
    1, 2: destruct (SiteModel.connection _ _ _ _ _ _ _ _ _ servers rs (t_cache s) (t_world s)) as [l q'] eqn:C; injection H as <- <-;
      cbn [answered]; eexists; (split; [exact E|]); exact (IH _ _ _ _ C).
    injection H as <- <-. cbn [answered]. eexists. split; [exact E|]. split; reflexivity.
  Qed.
End Answers.
Print Assumptions C135_answers.
Print Assumptions C135_same_rule_partial.
Print Assumptions C135_own_partial.
Print Assumptions C135_other_site_refuted.
(* a connection whose two requests, for two sites, both match the rule / *)
Definition demo_key (a b : key) : bool :=
  match m_path (fst (fst a)), m_path (fst (fst b)) with Some p, Some q => leqb p q | None, None => true | _, _ => false end.
Definition demo_rule : matcher := Matcher (Some [47]) None None None None None.
Definition demo_loc : location := Location demo_rule None None false None None None None.
Definition demo_loc2 : location := Location demo_rule None None true None None None None.
Definition demo_sites : list server := [Server (txt "a.com") [] [] [demo_loc]; Server (txt "b.com") [] [] [demo_loc2]].
Definition demo_req (host : text) : request := Request (txt "/x") (txt "GET") (txt "http") (Some host) None.
Example C135_demo : equality demo_key /\
  connection (W := unit) (fun _ => None) (fun _ => None) (fun _ v => v) (fun _ _ w => (LimOk, w)) (fun _ _ w => (Ok (200, true), w)) (fun _ q _ => r_host q) (fun _ _ => false)
    (fun _ _ w => (Some (Ok 200), w)) demo_key demo_sites [demo_req (txt "a.com"); demo_req (txt "b.com")] [] (Pool [] [] tt) =
  ([Ok (Answer 200 (FromServe 0)); Ok (Answer 200 (FromReuse 0))],
   Pool [(loc_key demo_loc2, (Server (txt "a.com") [] [] [demo_loc], demo_loc))]
        [(Server (txt "b.com") [] [] [demo_loc2], loc_key demo_loc2, Some (Server (txt "a.com") [] [] [demo_loc], demo_loc))] tt).
Proof.
  split; [|reflexivity]. unfold demo_key. split.
  - intros a. destruct (m_path (fst (fst a))); [apply leqb_refl|reflexivity].
  - intros a b c. destruct (m_path (fst (fst a))) as [p|], (m_path (fst (fst b))) as [q|], (m_path (fst (fst c))) as [s|]; try discriminate; try reflexivity.
    intros H1 H2. apply leqb_ok in H1, H2. subst. apply leqb_refl.
Qed.

Section Body.
  Context {W : Type} (regex : text -> option (text -> bool)) (parse_ip : text -> option ipaddr)
          (fmt : request -> text -> text)
          (limit : lreq -> text -> W -> limres * W)
          (rehost : location -> request -> W -> option text)
          (closed : key -> W -> bool)
          (same_key : key -> key -> bool)
          (backend : location -> request -> list N -> W -> res unit (N * bool) * bool * W)
          (again : key -> request -> list N -> W -> option (res unit N) * W).
  Notation post := (@post W regex parse_ip fmt limit rehost closed same_key backend again).
  (* what is left and what was given *)
  Definition once (body : list N) (p : posted (W := W)) : Prop :=
    (b_body p = body /\ b_given p = []) \/ (b_body p = [] /\ exists rest, b_given p = body :: rest /\ Forall (fun b => b = []) rest).
  Lemma once_give body p w : once body p -> once body (Posted [] (b_given p ++ [b_body p]) w).
  Proof.
    intros [[-> ->]|[-> (rest & -> & F)]]; right; cbn; (split; [reflexivity|]).
    - exists []. split; [reflexivity|constructor].
    - exists (rest ++ [[]]). split; [reflexivity|]. apply Forall_app. split; [exact F|constructor; [reflexivity|constructor]].
  Qed.
  Lemma post_once servers r body cache w s a : post servers r body cache w = Some (s, a) -> once body (t_world s).
  Proof.
    intros H. unfold SiteModel.post, operate in H. destruct (pick_server servers (host_of r)) as [sv|].
    2:{ injection H as <- _. left. split; reflexivity. }
    revert H. apply (deal_inv regex parse_ip fmt _ _ _ _ _ _ (s_locs sv) r (fun s => once body (t_world s))); [| | | |left; split; reflexivity|reflexivity].
    - intros x q H _. exact H.
    - intros x w0 H A. cbn. destruct A as [->|(lr & ip & y & A)]; [exact H|]. unfold limit_body in A.
      destruct (limit lr ip (b_world (t_world x))) as [z w1]. injection A as <- <-. exact H.
    - intros x i l H _ _ _. exact H.
    - intros x i l G _ _. unfold handle. cbn [t_cache with_deals t_world with_cache t_path t_host].
      destruct (cached same_key (loc_key l) (t_cache x)).
      + destruct (closed (loc_key l) (b_world (t_world x))); [exact G|]. unfold reuse_body.
        destruct (again (loc_key l) _ _ _) as [z w0]. cbn [t_cache with_world event t_world]. destruct z as [[c| |]|]; cbn [fst with_cache t_cache t_world]; apply once_give; exact G.
      + unfold serve_body. destruct (backend l _ _ _) as [[o took] w0]. cbn [t_cache with_world event t_world].
        assert (X : once body (if took then Posted [] (b_given (t_world x) ++ [b_body (t_world x)]) w0 else Posted (b_body (t_world x)) (b_given (t_world x)) w0)).
        { destruct took; [apply once_give; exact G|]. exact G. }
        destruct o as [[c []]| |]; exact X.
  Qed.

  (* C136, full statement: every backend that is given a request is given its whole body.
     Proved for the first backend that takes the body ... *)
  Theorem C136_first_partial : forall servers r body cache w s a b rest, post servers r body cache w = Some (s, a) ->
    b_given (t_world s) = b :: rest -> b = body.
  Proof.
    intros servers r body cache w s a b rest H G. destruct (post_once _ _ _ _ _ _ _ H) as [[_ X]|[_ (x & X & _)]]; rewrite X in G; [discriminate|].
    injection G as -> _. reflexivity.
  Qed.
  (* ... but all the others (those of later try paths) are given an empty body. *)
  Theorem C136_later_refuted : forall servers r body cache w s a b rest x, post servers r body cache w = Some (s, a) ->
    b_given (t_world s) = b :: rest -> In x rest -> x = [].
  Proof.
    intros servers r body cache w s a b rest x H G I. destruct (post_once _ _ _ _ _ _ _ H) as [[_ X]|[_ (y & X & F)]]; rewrite X in G; [discriminate|].
    injection G as _ <-. rewrite Forall_forall in F. apply F. exact I.
  Qed.
End Body.
Print Assumptions C136_first_partial.
Print Assumptions C136_later_refuted.
(* two backends; the first one does not have the page *)
Definition demo_at (p : text) (t : option (list text * N)) : location := Location (Matcher (Some p) None None None None None) None None false t None None None.
Definition demo_site2 : list server := [Server (txt "a.com") [] [] [demo_at (txt "/one") None; demo_at (txt "/two") None; demo_at (txt "/") (Some ([txt "/one"; txt "/two"], 404))]].
Example C136_demo : option_map (fun x => (b_given (t_world (fst x)), snd x)) (post (W := unit) (fun _ => None) (fun _ => None) (fun _ v => v) (fun _ _ w => (LimOk, w)) (fun _ q _ => r_host q) (fun _ _ => false) demo_key
    (fun l _ _ w => (Ok (if leqb (get_path (l_rule l)) (txt "/one") then 404 else 200, true), true, w)) (fun _ _ _ w => (Some (Ok 200), w))
    demo_site2 (demo_req (txt "a.com")) [1; 2; 3] [] tt) = Some ([[1; 2; 3]; []], Ok (Answer 200 (FromServe 1))).
Proof. vm_compute. reflexivity. Qed.

(* C137: a location with a method serves only requests of that method.  False of the code:
   the method of a location (not of its rule) does not keep it from serving the others. *)
Theorem C137_method_refuted : forall (W : Type) regex parse_ip fmt limit serve rehost closed reuse same_key servers sv r cache (w : W) i l m c keep w',
  selected servers (requested_host r) sv -> first_holds regex parse_ip (s_locs sv) (r_path r) r i l ->
  l_meth l = Some m -> m <> r_method r ->
  l_limit l = None -> l_allow l = None -> l_deny l = None -> l_try l = None -> cached same_key (loc_key l) cache = false ->
  serve l r w = (Ok (c, keep), w') ->
  exists s, operate regex parse_ip fmt limit serve rehost closed reuse same_key servers r cache w = Some (s, Ok (Answer c (FromServe i))).
Proof.
  intros W regex parse_ip fmt limit serve rehost closed reuse same_key servers sv r cache w i l m c keep w' S0 F _ _ L1 L2 L3 L4 C V.
  destruct (C29_served regex parse_ip fmt limit serve rehost closed reuse same_key servers sv r cache w i l c keep w' S0 F L1 L2 L3 L4 C V) as (s & H & _).
  exists s. exact H.
Qed.
Print Assumptions C137_method_refuted.
Example C137_method_demo : option_map snd (operate (W := unit) (fun _ => None) (fun _ => None) (fun _ v => v) (fun _ _ w => (LimOk, w)) (fun _ _ w => (Ok (200, false), w)) (fun _ q _ => r_host q) (fun _ _ => false)
  (fun _ _ w => (None, w)) demo_key [Server (txt "a.com") [] [] [Location demo_rule None (Some (txt "POST")) false None None None None]] (demo_req (txt "a.com")) [] tt) = Some (Ok (Answer 200 (FromServe 0))).
Proof. vm_compute. reflexivity. Qed.
