(* Where the datagrams of a new client of a UDP stream server go: C170. *)
From Coq Require Import String.
From Verif Require Import Base Text TextOps ConfModel AddrModel HealthModel HealthSpec HealthProofs HealthProps TgtModel TgtSpec TgtProofs UdpModel.
Open Scope N_scope.

Lemma udp_addr_app a b n : forall f, udp_addr (a ++ b) n f = do x <- udp_addr a n f ; udp_addr b n x.
Proof.
  induction a as [|[m c] a IH]; intros f; [reflexivity|]. cbn [app udp_addr]. destruct (leqb m n); [|apply IH].
  destruct c as [x|e|]; cbn [rbind]; [apply IH|reflexivity|reflexivity].
Qed.
Lemma udp_addr_none us n f : ~ In n (map fst us) -> udp_addr us n f = Ok f.
Proof.
  induction us as [|[m c] us IH]; intros H; [reflexivity|]. cbn [udp_addr]. cbn [map fst In] in H.
  destruct (leqb m n) eqn:E; [apply leqb_ok in E; tauto|]. apply IH. tauto.
Qed.
Lemma udp_addr_calm us n : (forall c, In (n, c) us -> exists o, c = Ok o) -> forall f, exists o, udp_addr us n f = Ok o.
Proof.
  induction us as [|[m c] us IH]; intros H f; [exists f; reflexivity|]. cbn [udp_addr].
  assert (H' : forall c, In (n, c) us -> exists o, c = Ok o) by (intros c' I; apply H; right; exact I).
  destruct (leqb m n) eqn:E; [|apply (IH H')]. apply leqb_ok in E as ->.
  destruct (H c (or_introl eq_refl)) as [o ->]. cbn [rbind]. apply (IH H').
Qed.
Lemma upstream_first us n pre c post : us = pre ++ (n, c) :: post -> n <> [] -> ~ In n (map fst pre) -> get_upstream_addr us n = c.
Proof.
  intros -> Hn. induction pre as [|[m d] pre IH]; intros H; cbn [app get_upstream_addr].
  - rewrite leqb_refl. reflexivity.
  - cbn [map fst In] in H. destruct (leqb m n) eqn:E; [apply leqb_ok in E; tauto|].
    destruct n; [congruence|]. apply IH. tauto.
Qed.

(* The upstream of the server's name, when there is exactly one of that name: what it
   gives is where the datagrams go.  When it gives nothing they are lost. *)
Theorem C170_named_partial : forall us pre n c post, us = pre ++ (n, c) :: post ->
  ~ In n (map fst pre) -> ~ In n (map fst post) ->
  udp_target us n = match c with Ok (Some a) => Ok a | Ok None => Err tt | Err e => Err e | Panic => Panic end.
Proof.
  intros us pre n c post -> H1 H2. unfold udp_target. rewrite udp_addr_app, udp_addr_none by exact H1. cbn [rbind udp_addr].
  rewrite leqb_refl. destruct c as [o|e|]; [|reflexivity|reflexivity]. cbn [rbind]. rewrite udp_addr_none by exact H2.
  cbn [rbind]. destruct o; reflexivity.
Qed.
(* ... and it is where the connections of a TCP server with the same settings go. *)
Theorem C170_like_tcp_partial : forall connect_url resolve own us pre n c post, us = pre ++ (n, c) :: post -> n <> [] ->
  ~ In n (map fst pre) -> ~ In n (map fst post) ->
  forall a, udp_target us n = Ok a <-> stream_target connect_url resolve own None us n = Ok (Some a, own).
Proof.
  intros cu rs own us pre n c post E Hn H1 H2 a. rewrite (C170_named_partial _ _ _ _ _ E H1 H2).
  unfold stream_target. cbn [rbind]. rewrite (upstream_first _ _ _ _ _ E Hn H1).
  destruct c as [[x|]|e|]; cbn [rbind]; (split; intros Q; try discriminate); [injection Q as ->|injection Q as Q].
  - destruct own; reflexivity.
  - subst x. reflexivity.
Qed.
(* No upstream of that name: nothing is forwarded. *)
Theorem C170_nowhere : forall us n, ~ In n (map fst us) -> udp_target us n = Err tt.
Proof. intros us n H. unfold udp_target. rewrite udp_addr_none by exact H. reflexivity. Qed.

(* A server's own upstream does not take precedence: the datagrams go to the one of the
   section, TCP connections to the server's own. *)
Theorem C170_own_refuted : forall connect_url resolve own section n a b pre post pre' post', n <> [] ->
  own = pre ++ (n, Ok (Some a)) :: post -> ~ In n (map fst pre) ->
  section = pre' ++ (n, Ok (Some b)) :: post' -> ~ In n (map fst post') ->
  (forall c, In (n, c) (own ++ section) -> exists o, c = Ok o) ->
  udp_target (stream_upstreams own section) n = Ok b /\
  stream_target connect_url resolve None None (stream_upstreams own section) n = Ok (Some a, None).
Proof.
  intros cu rs own section n a b pre post pre' post' Hn Eo H1 Es H2 Hc. unfold stream_upstreams. split.
  - unfold udp_target. rewrite Es, app_assoc, udp_addr_app.
    destruct (udp_addr_calm (own ++ pre') n) with (f := @None saddr) as [o E].
    { intros c I. apply Hc. rewrite Es, app_assoc. apply in_app_iff. left. exact I. }
    rewrite E. cbn [rbind udp_addr]. rewrite leqb_refl. cbn [rbind]. rewrite udp_addr_none by exact H2. reflexivity.
  - unfold stream_target. cbn [rbind]. assert (G : get_upstream_addr (own ++ section) n = Ok (Some a)).
    { apply (upstream_first _ n pre _ (post ++ section)); [|exact Hn|exact H1]. rewrite Eo, <- app_assoc. reflexivity. }
    exact (f_equal (fun z => do c <- z ; Ok (c, None)) G).
Qed.
(* A last upstream of that name without members hides the others. *)
Theorem C170_empty_refuted : forall us n us', us = us' ++ [(n, Ok None)] -> (forall c, In (n, c) us' -> exists o, c = Ok o) ->
  udp_target us n = Err tt.
Proof.
  intros us n us' -> Hc. unfold udp_target. rewrite udp_addr_app. destruct (udp_addr_calm us' n Hc None) as [o ->].
  cbn [rbind udp_addr]. rewrite leqb_refl. reflexivity.
Qed.
(* proxy_url is not looked at, and a server without a name has no upstream, where a TCP
   server has the one of the URL and the first of all. *)
Theorem C170_url_refuted : forall connect_url resolve own u us n t a l, ~ In n (map fst us) ->
  u_domain u = None -> connect_url u = Some t -> resolve t = Some (a :: l) ->
  stream_target connect_url resolve own (Some u) us n = Ok (Some a, own) /\ udp_target us n = Err tt.
Proof.
  intros cu rs own u us n t a l H Hd Hc Hr. split; [|apply C170_nowhere; exact H].
  unfold stream_target. rewrite Hd. cbn [rbind with_port]. rewrite Hc, Hr. cbn [hd_error rbind]. destruct own; reflexivity.
Qed.
Theorem C170_unnamed_refuted : forall connect_url resolve own m a us, ~ In [] (map fst ((m, Ok (Some a)) :: us)) ->
  stream_target connect_url resolve own None ((m, Ok (Some a)) :: us) [] = Ok (Some a, own) /\
  udp_target ((m, Ok (Some a)) :: us) [] = Err tt.
Proof.
  intros cu rs own m a us H. split; [|apply C170_nowhere; exact H]. unfold stream_target. cbn [rbind get_upstream_addr].
  destruct (leqb m []); destruct own; reflexivity.
Qed.
(* An upstream of the server's name whose members all have weight zero: the first datagram
   crashes the task that accepts for every listener, whatever the other upstreams are. *)
Theorem C170_zero_weight_refuted : forall sa draw now h us n l, In (n, l) us -> l <> [] -> total l = 0 ->
  udp_target (now_of sa draw now h us) n = Panic.
Proof.
  intros sa draw now h us n l I Hl Ht. apply in_split in I as (us1 & us2 & ->).
  unfold udp_target, now_of. rewrite map_app, udp_addr_app. cbn [map fst snd].
  set (f := fun p : text * list server => _).
  assert (A : udp_addr (map f us1) n None = Panic \/ exists o, udp_addr (map f us1) n None = Ok o).
  { generalize (@None saddr). induction us1 as [|[m k] us1 IH]; intros o; [right; exists o; reflexivity|].
    cbn [map]. unfold f at 1 3. cbn [fst snd udp_addr]. destruct (leqb m n); [|apply IH].
    assert (B : forall e, get_server_addr draw now h k <> Err e).
    { intros e. unfold get_server_addr. destruct k; [discriminate|]. repeat (match goal with |- context[match ?x with _ => _ end] => destruct x end; try discriminate). }
    destruct (get_server_addr draw now h k) as [x|e|]; [|destruct (B e eq_refl)|left; reflexivity].
    cbn [rbind]. apply IH. }
  destruct A as [->|[o ->]]; [reflexivity|]. cbn [rbind udp_addr]. rewrite leqb_refl.
  rewrite C21_zero_weight_panics by assumption. reflexivity.
Qed.
(* What this means for a client: a datagram of a client without a session opens one with the
   chosen address, or none at all. *)
Theorem C170_session : forall sa us n tmo now d a st, lookup N.eqb a (u_sess st) = None ->
  let up := match udp_target us n with Ok x => Some (sa x) | _ => None end in
  let out := snd (process_data tmo now up d a st) in
  (forall x, udp_target us n = Ok x -> out = [OOpen (length (u_tasks st)) a (sa x)]) /\
  ((forall x, udp_target us n <> Ok x) -> out = [] /\ fst (process_data tmo now up d a st) = st).
Proof.
  intros sa us n tmo now d a st H up out. unfold out, process_data. rewrite H. split.
  - intros x E. unfold up. rewrite E. reflexivity.
  - intros E. unfold up. destruct (udp_target us n) as [x| |]; [destruct (E x eq_refl)|split; reflexivity|split; reflexivity].
Qed.
(* the hypotheses are met: one name, two upstreams of it *)
Example C170_demo :
  let a := SAddr (V4 1) 53 in let b := SAddr (V4 2) 53 in
  let own := [(txt "dns", Ok (Some a))] in let section := [(txt "web", Ok None); (txt "dns", Ok (Some b))] in
  udp_target own (txt "dns") = Ok a /\ udp_target (stream_upstreams own section) (txt "dns") = Ok b /\
  get_upstream_addr (stream_upstreams own section) (txt "dns") = Ok (Some a) /\
  udp_target (own ++ [(txt "dns", Ok None)]) (txt "dns") = Err tt /\
  udp_target (stream_upstreams own section) [] = Err tt /\
  get_upstream_addr (stream_upstreams own section) [] = Ok (Some a) /\
  udp_target (now_of (fun _ => a) 0 0 (hcheck_new 60 3 2) [(txt "dns", [Server [1] 0 second 2 2])]) (txt "dns") = Panic.
Proof. vm_compute. repeat split. Qed.
Print Assumptions C170_named_partial.
Print Assumptions C170_like_tcp_partial.
Print Assumptions C170_nowhere.
Print Assumptions C170_own_refuted.
Print Assumptions C170_empty_refuted.
Print Assumptions C170_url_refuted.
Print Assumptions C170_unnamed_refuted.
Print Assumptions C170_zero_weight_refuted.
Print Assumptions C170_session.
