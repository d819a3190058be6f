(* C36, C48, C65, C66: the HTTP proxy and protocol detection. *)
From Coq Require Import String.
From Verif Require Import Base Text TextOps ConfModel AddrModel SocksModel SocksSpec SocksProofs SocksProps HttpProxyModel HttpProxyProofs.
Open Scope N_scope.

(* the header value a client sends for user u and password p *)
Definition basic (u p : bytes) : text := txt "Basic " ++ b64_encode (u ++ 58 :: p).
Definition fresh : hst := HSt None None.

Lemma no_colon s : no_char 58 s = true <-> ~ In 58 s.
Proof.
  unfold no_char. rewrite forallb_forall. split.
  - intros H I. specialize (H 58 I). discriminate.
  - intros H x I. destruct (N.eqb_spec x 58) as [->|]; [contradiction|reflexivity].
Qed.
(* C36: exactly which header values are accepted: two words or more, the second
   being the base64 form of user:password; the first word is not looked at *)
Theorem C36_check : forall u p v, bytes_ok u = true -> bytes_ok p = true -> (check_basic_auth u p v = Ok true <->
  exists scheme more, split_ws v = scheme :: b64_encode (u ++ 58 :: p) :: more /\ ~ In 58 u /\ ~ In 58 p).
Proof.
  intros u p v Hu Hp. rewrite check_true. unfold no_char.
  assert (B : bytes_ok (u ++ 58 :: p) = true). { rewrite bytes_ok_app, Hu. change (bytes_ok (58 :: p)) with (bytes_ok p). exact Hp. }
  split.
  - intros (a & t & m & H1 & H2 & H3 & H4). apply no_colon in H3, H4. exists a, m. split; [|auto]. rewrite <- (b64_canon _ t _ (le_n _) H2). exact H1.
  - intros (a & m & H1 & H2 & H3). apply no_colon in H2, H3. exists a, (b64_encode (u ++ 58 :: p)), m. split; [exact H1|]. split; [apply b64_roundtrip; exact B|auto].
Qed.
(* the right credentials are accepted, for every user and password without a colon *)
Theorem C36_accepted : forall u p, bytes_ok u = true -> bytes_ok p = true -> ~ In 58 u -> ~ In 58 p -> check_basic_auth u p (basic u p) = Ok true.
Proof.
  intros u p Hu Hp Nu Np. apply (C36_check u p _ Hu Hp). exists (txt "Basic"), [].
  assert (B : bytes_ok (u ++ 58 :: p) = true). { rewrite bytes_ok_app, Hu. change (bytes_ok (58 :: p)) with (bytes_ok p). exact Hp. }
  split; [|auto].
  unfold basic. change (txt "Basic ") with (txt "Basic" ++ [32]). rewrite <- app_assoc. cbn [app].
  rewrite split_ws_app by reflexivity. rewrite split_ws_one; [reflexivity|]. apply b64_word; [exact B|]. destruct u; discriminate.
Qed.
(* and no others are: a value accepted for one user and password is accepted for
   no other *)
Theorem C36_exact : forall u p u' p' v, check_basic_auth u p v = Ok true -> check_basic_auth u' p' v = Ok true -> u = u' /\ p = p'.
Proof.
  intros u p u' p' v H H'. apply check_true in H, H'. destruct H as (a & t & m & E & D & N1 & N2). destruct H' as (a' & t' & m' & E' & D' & N1' & N2').
  rewrite E in E'. injection E' as <- <- <-. rewrite D in D'. injection D' as D'.
  assert (S : split_on 58 (u ++ 58 :: p) = [u; p]) by (apply split_two; auto).
  assert (S' : split_on 58 (u' ++ 58 :: p') = [u'; p']) by (apply split_two; auto). rewrite D' in S. rewrite S in S'. injection S' as <- <-. auto.
Qed.
(* on one client connection: whenever a request is forwarded or a tunnel opened, this
   or an earlier request of the connection carried the configured credentials *)
Theorem C36_connection_partial : forall c qs i ev a, nth_error (snd (h_run c fresh qs)) i = Some (ev, a) -> 
  (exists h, (exists auth, In (HSend h auth) ev) \/ In (HTunnel h) ev) ->
  exists j q d r, (j <= i)%nat /\ nth_error qs j = Some (q, d, r) /\
    forall u p, h_user c = Some u -> h_pass c = Some p -> exists v, q_auth q = Some v /\ check_basic_auth u p v = Ok true.
Proof.
  intros c qs i ev a H F. destruct (run_forwards c qs fresh i ev a eq_refl H F) as (j & q & d & r & L & N & C).
  exists j, q, d, r. split; [exact L|]. split; [exact N|]. intros u p Hu Hp. unfold carries, h_auth in C. rewrite Hu, Hp in C. exact C.
Qed.
(* false of the code: a request with missing or wrong credentials is answered 407,
   but only after the target has been connected to *)
Theorem C36_dials_refuted : forall c u p q h reply, h_user c = Some u -> h_pass c = Some p -> q_host q = Some h ->
  (q_auth q = None \/ exists v, q_auth q = Some v /\ check_basic_auth u p v = Ok false) ->
  h_operate c fresh q true reply = (fresh, [HDial h], Ok (HStatus 407)).
Proof.
  intros c u p q h reply Hu Hp Hh Ha. unfold h_operate, fresh, h_auth. cbn [k_conn]. rewrite Hh, Hu, Hp. cbn [negb].
  destruct Ha as [->|(v & -> & ->)]; reflexivity.
Qed.
(* false of the code: once a request has been forwarded, later ones on the same
   client connection need no credentials *)
Theorem C36_later_refuted : forall c q1 h1 reply1 q2 dial2, q_host q1 = Some h1 -> q_connect q1 = false -> carries c q1 ->
  exists s1 ev1 a1, h_operate c fresh q1 true (Some reply1) = (s1, ev1, a1) /\
    h_operate c s1 q2 dial2 (Some true) = (s1, [HSend h1 (q_auth q2)], Ok HBackend).
Proof.
  intros c q1 h1 reply1 q2 dial2 Hh Hc Ha. unfold h_operate at 1. unfold fresh. cbn [k_conn]. rewrite Hh, Hc. cbn [negb]. unfold carries in Ha.
  destruct (h_auth c) as [[u p]|].
  - destruct Ha as (v & -> & ->). eexists _, _, _. split; [reflexivity|]. reflexivity.
  - eexists _, _, _. split; [reflexivity|]. reflexivity.
Qed.
(* false of the code: the scheme is not looked at *)
Theorem C36_scheme_refuted : forall u p scheme u' p', word scheme = true -> bytes_ok u' = true -> bytes_ok p' = true ->
  check_basic_auth u p (scheme ++ 32 :: b64_encode (u' ++ 58 :: p')) = check_basic_auth u p (basic u' p').
Proof.
  intros u p sc u' p' W Hu Hp. assert (B : bytes_ok (u' ++ 58 :: p') = true). { rewrite bytes_ok_app, Hu. change (bytes_ok (58 :: p')) with (bytes_ok p'). exact Hp. }
  assert (W2 : word (b64_encode (u' ++ 58 :: p')) = true) by (apply b64_word; [exact B|destruct u'; discriminate]).
  unfold basic. change (txt "Basic ") with (txt "Basic" ++ [32]). rewrite <- app_assoc. cbn [app]. unfold check_basic_auth.
  rewrite (split_ws_app sc) by (exact W || reflexivity). rewrite (split_ws_app (txt "Basic")) by reflexivity. rewrite split_ws_one by exact W2. reflexivity.
Qed.
(* false of the code: a user name or password with a colon is never accepted *)
Theorem C36_colon_refuted : forall u p v, In 58 u \/ In 58 p -> check_basic_auth u p v <> Ok true.
Proof. intros u p v H E. apply check_true in E. destruct E as (_ & _ & _ & _ & _ & N1 & N2). apply no_colon in N1, N2. destruct H; contradiction. Qed.
(* false of the code: an empty value, or one whose second word is no base64,
   crashes the task that serves the connection *)
Theorem C36_crash_refuted : forall c u p q h reply v, h_user c = Some u -> h_pass c = Some p -> q_host q = Some h -> q_auth q = Some v ->
  (split_ws v = [] \/ exists scheme tok more, split_ws v = scheme :: tok :: more /\ b64_decode tok = None) ->
  snd (h_operate c fresh q true reply) = Panic.
Proof.
  intros c u p q h reply v Hu Hp Hh Ha H. unfold h_operate, fresh, h_auth. cbn [k_conn]. rewrite Hh, Hu, Hp, Ha. cbn [negb]. unfold check_basic_auth.
  destruct H as [->|(sc & tok & more & -> & ->)]; reflexivity.
Qed.

(* C65: false of the code: after a forwarded request every later one is sent to the
   same target, whatever host it names *)
Theorem C65_target_refuted : forall c s t q dial reply, k_conn s = Some t ->
  exists a, h_operate c s q dial reply = (s, [HSend t (q_auth q)], a) /\ (reply = Some true <-> a = Ok HBackend).
Proof. intros c s t q dial reply H. unfold h_operate. rewrite H. eexists. split; [reflexivity|]. destruct reply as [[|]|]; split; intros E; try reflexivity; discriminate. Qed.
(* proved: until then a request goes to the host it names, and only there *)
Theorem C65_first_partial : forall c s q dial reply s' ev a, k_conn s = None -> h_operate c s q dial reply = (s', ev, a) ->
  Forall (fun e => q_host q = Some (match e with HDial h => h | HSend h _ => h | HTunnel h => h end)) ev /\
  (forall h, k_conn s' = Some h -> q_host q = Some h) /\ (q_connect q = true -> k_conn s' = None).
Proof.
  intros c s q dial reply s' ev a Hs H. unfold h_operate in H. rewrite Hs in H. destruct (q_host q) as [h|] eqn:Eh.
  2:{ injection H as <- <- <-. rewrite Hs. split; [constructor|]. split; [discriminate|auto]. }
  assert (Z : forall h' : text, k_conn s = Some h' -> Some h = Some h') by (intros h'; rewrite Hs; discriminate).
  destruct (negb dial).
  { injection H as <- <- <-. split; [repeat constructor|]. auto. }
  assert (G : forall auth, (if q_connect q then (HSt None (Some h), [HDial h; HTunnel h], Ok (HStatus 200))
      else (match reply with Some _ => HSt (Some h) (k_tunnel s) | None => s end, [HDial h; HSend h auth], relay_answer reply)) = (s', ev, a) ->
      Forall (fun e => Some h = Some (match e with HDial h => h | HSend h _ => h | HTunnel h => h end)) ev /\
      (forall h0, k_conn s' = Some h0 -> Some h = Some h0) /\ (q_connect q = true -> k_conn s' = None)).
  { intros auth G. destruct (q_connect q).
    - injection G as <- <- <-. split; [repeat constructor|]. split; [discriminate|auto].
    - injection G as <- <- <-. split; [repeat constructor|]. split; [|discriminate]. destruct reply; cbn; [intros h0 Q; exact Q|rewrite Hs; discriminate]. }
  destruct (h_auth c) as [[u p]|]; [|exact (G _ H)].
  destruct (match q_auth q with Some v => check_basic_auth u p v | None => Ok false end) as [[]| |];
    [exact (G _ H)| | |]; injection H as <- <- <-; (split; [repeat constructor|auto]).
Qed.
(* C66: false of the code: later requests of a connection are forwarded together with
   the proxy credentials they carry *)
Theorem C66_leak_refuted : forall c q1 h1 q2 dial2, q_host q1 = Some h1 -> q_connect q1 = false -> carries c q1 ->
  exists s1 ev1 a1, h_operate c fresh q1 true (Some true) = (s1, ev1, a1) /\
    In (HSend h1 (q_auth q2)) (snd (fst (h_operate c s1 q2 dial2 (Some true)))).
Proof.
  intros c q1 h1 q2 dial2 Hh Hc Ha. destruct (C36_later_refuted c q1 h1 true q2 dial2 Hh Hc Ha) as (s1 & ev1 & a1 & E1 & E2).
  exists s1, ev1, a1. split; [exact E1|]. rewrite E2. left. reflexivity.
Qed.
(* proved: the first forwarded request carries none, where credentials are configured *)
Theorem C66_first_partial : forall c u p s q dial reply h auth, h_user c = Some u -> h_pass c = Some p -> k_conn s = None ->
  In (HSend h auth) (snd (fst (h_operate c s q dial reply))) -> auth = None.
Proof.
  intros c u p s q dial reply h auth Hu Hp Hs H. unfold h_operate, h_auth in H. rewrite Hs, Hu, Hp in H. destruct (q_host q) as [h'|]; [|destruct H].
  destruct (negb dial); [destruct H as [H|[]]; discriminate|].
  destruct (match q_auth q with Some v => check_basic_auth u p v | None => Ok false end) as [[]| |].
  - destruct (q_connect q); cbn in H; destruct H as [H|[H|[]]]; try discriminate. congruence.
  - cbn in H. destruct H as [H|[]]; discriminate.
  - cbn in H. destruct H as [H|[]]; discriminate.
  - cbn in H. destruct H as [H|[]]; discriminate.
Qed.

(* On a whole connection: the host that owns it is the one named by the first request
   that is no CONNECT, carries the configured credentials, reaches its target and gets
   anything back from it.  Until there is one, every request goes to the host it names,
   without credentials where they are configured; from then on every request goes to
   the owner, with the credentials the client sent. *)
Definition allowed (c : hcfg) (q : hreq) : bool :=
  match h_user c, h_pass c with
  | Some u, Some p => match q_auth q with Some v => match check_basic_auth u p v with Ok b => b | _ => false end | None => false end
  | _, _ => true
  end.
Fixpoint owner (c : hcfg) (qs : list (hreq * bool * option bool)) : option text :=
  match qs with
  | [] => None
  | (q, dial, reply) :: qs' =>
    match q_host q, reply with
    | Some h, Some _ => if dial && negb (q_connect q) && allowed c q then Some h else owner c qs'
    | _, _ => owner c qs'
    end
  end.
Definition named (q : hreq) (e : hev) : Prop :=
  q_host q = Some (match e with HDial h => h | HSend h _ => h | HTunnel h => h end).
Lemma h_owned c t qs : forall s, k_conn s = Some t ->
  snd (h_run c s qs) = map (fun x => let '(q, _, reply) := x in ([HSend t (q_auth q)], relay_answer reply)) qs.
Proof.
  induction qs as [|[[q d] r] qs IH]; intros s H; [reflexivity|].
  cbn [h_run map]. unfold h_operate. rewrite H. specialize (IH s H). destruct (h_run c s qs) as [s2 l]. cbn [snd] in *. rewrite IH. reflexivity.
Qed.
Lemma h_kept c s q d r : k_conn s = None ->
  k_conn (fst (fst (h_operate c s q d r))) =
    match q_host q, r with Some h, Some _ => if d && negb (q_connect q) && allowed c q then Some h else None | _, _ => None end.
Proof.
  intros H. unfold h_operate, allowed, h_auth. rewrite H. destruct (q_host q) as [h|]; [|exact H].
  destruct d; cbn [negb andb]; [|destruct r; exact H].
  destruct (h_user c) as [u|]; [destruct (h_pass c) as [p|]|].
  - destruct (match q_auth q with Some v => check_basic_auth u p v | None => Ok false end) as [[]| |] eqn:E;
      destruct (q_auth q) as [v|]; try discriminate E; rewrite ?E; destruct (q_connect q), r; cbn; exact H || reflexivity.
  - destruct (q_connect q), r; cbn; exact H || reflexivity.
  - destruct (q_connect q), r; cbn; exact H || reflexivity.
Qed.
Lemma h_free_auth c u p s q d r h auth : h_user c = Some u -> h_pass c = Some p -> k_conn s = None ->
  In (HSend h auth) (snd (fst (h_operate c s q d r))) -> auth = None.
Proof. intros Hu Hp Hs H. exact (C66_first_partial c u p s q d r h auth Hu Hp Hs H). Qed.
Lemma h_conn_exact c qs : forall s i q d r, k_conn s = None -> nth_error qs i = Some (q, d, r) ->
  exists ev a, nth_error (snd (h_run c s qs)) i = Some (ev, a) /\
    match owner c (firstn i qs) with
    | Some t => ev = [HSend t (q_auth q)]
    | None => Forall (named q) ev /\
              (forall u p h auth, h_user c = Some u -> h_pass c = Some p -> In (HSend h auth) ev -> auth = None)
    end.
Proof.
  induction qs as [|[[q0 d0] r0] qs IH]; intros s i q d r Hs Hi; [destruct i; discriminate|].
  cbn [h_run]. pose proof (h_kept c s q0 d0 r0 Hs) as K. pose proof (C65_first_partial c s q0 d0 r0) as F.
  pose proof (fun u p => C66_first_partial c u p s q0 d0 r0) as G.
  destruct (h_operate c s q0 d0 r0) as [[s1 ev] a]. cbn [fst snd] in *.
  destruct i as [|i]; cbn [nth_error] in Hi.
  - injection Hi as <- <- <-. destruct (h_run c s1 qs) as [s2 l]. exists ev, a. split; [reflexivity|]. cbn [firstn owner].
    destruct (F s1 ev a Hs eq_refl) as (F1 & _). split; [exact F1|]. intros u p h auth Hu Hp. exact (G u p h auth Hu Hp Hs).
  - cbn [firstn owner].
    destruct (match q_host q0, r0 with Some h, Some _ => if d0 && negb (q_connect q0) && allowed c q0 then Some h else None | _, _ => None end) as [t|] eqn:E.
    + pose proof (h_owned c t qs s1 K) as O. destruct (h_run c s1 qs) as [s2 l]. cbn [snd] in *. subst l.
      exists [HSend t (q_auth q)], (relay_answer r). split.
      * cbn [nth_error]. rewrite nth_error_map, Hi. reflexivity.
      * destruct (q_host q0) as [h|]; [|discriminate E]. destruct r0; [|discriminate E].
        destruct (d0 && negb (q_connect q0) && allowed c q0); [|discriminate E]. injection E as <-. reflexivity.
    + specialize (IH s1 i q d r K Hi). destruct (h_run c s1 qs) as [s2 l]. cbn [snd nth_error] in *.
      assert (W : (match q_host q0 with
        | Some h => match r0 with Some _ => if d0 && negb (q_connect q0) && allowed c q0 then Some h else owner c (firstn i qs) | None => owner c (firstn i qs) end
        | None => owner c (firstn i qs) end) = owner c (firstn i qs)).
      { destruct (q_host q0); [|reflexivity]. destruct r0; [|reflexivity].
        destruct (d0 && negb (q_connect q0) && allowed c q0); [discriminate E|reflexivity]. }
      rewrite W. exact IH.
Qed.
Theorem C65_connection_partial : forall c qs i q d r, nth_error qs i = Some (q, d, r) ->
  exists ev a, nth_error (snd (h_run c fresh qs)) i = Some (ev, a) /\
    match owner c (firstn i qs) with Some t => ev = [HSend t (q_auth q)] | None => Forall (named q) ev end.
Proof.
  intros c qs i q d r H. destruct (h_conn_exact c qs fresh i q d r eq_refl H) as (ev & a & E & M).
  exists ev, a. split; [exact E|]. destruct (owner c (firstn i qs)); [exact M|exact (proj1 M)].
Qed.
Theorem C66_connection_partial : forall c u p qs i q d r h auth, h_user c = Some u -> h_pass c = Some p ->
  nth_error qs i = Some (q, d, r) ->
  forall ev a, nth_error (snd (h_run c fresh qs)) i = Some (ev, a) -> In (HSend h auth) ev ->
    auth = match owner c (firstn i qs) with Some _ => q_auth q | None => None end.
Proof.
  intros c u p qs i q d r h auth Hu Hp H ev a E Hin. destruct (h_conn_exact c qs fresh i q d r eq_refl H) as (ev' & a' & E' & M).
  rewrite E in E'. injection E' as <- <-. destruct (owner c (firstn i qs)).
  - subst ev. destruct Hin as [Hin|[]]. congruence.
  - exact (proj2 M u p h auth Hu Hp Hin).
Qed.
Example C65_connection_case :
  let q h := HReq false (Some h) (Some (txt "x")) in let c := HCfg None None in
  owner c [(q (txt "a"), false, None); (q (txt "b"), true, None); (q (txt "c"), true, Some true); (q (txt "d"), true, Some true)] = Some (txt "c") /\
  map fst (snd (h_run c fresh [(q (txt "a"), false, None); (q (txt "b"), true, None); (q (txt "c"), true, Some true); (q (txt "d"), true, Some true)])) =
    [[HDial (txt "a")]; [HDial (txt "b"); HSend (txt "b") (Some (txt "x"))]; [HDial (txt "c"); HSend (txt "c") (Some (txt "x"))]; [HSend (txt "c") (Some (txt "x"))]].
Proof. vm_compute. split; reflexivity. Qed.
Print Assumptions C65_connection_partial.
Print Assumptions C66_connection_partial.

(* C48: whoever gets the connection gets exactly the bytes the client sent, however
   they are cut and however large the first read is *)
Theorem C48_bytes : forall flag room segs i, Forall (fun s => s <> []) segs ->
  (detect flag room segs = ToHttp i \/ detect flag room segs = ToSocks i) -> sent i = List.concat segs /\ alive i.
Proof. intros flag room segs i A H. exact (detect_bytes flag room segs i H A). Qed.
(* on a port with both protocols the first byte decides, and only it *)
Theorem C48_choice : forall flag room segs b rest, (0 < room)%nat -> Forall (fun s => s <> []) segs -> List.concat segs = b :: rest ->
  f_contains flag f_socks5 = true -> (f_contains flag f_http = true \/ f_contains flag f_https = true) ->
  exists i, detect flag room segs = if b =? 5 then ToSocks i else ToHttp i.
Proof.
  intros flag room segs b rest R A S F H. destruct (detect_choice flag room segs b rest R A S) as (i & ->). exists i. unfold has_http, to_socks. rewrite F.
  destruct H as [-> | ->]; rewrite ?orb_true_r; reflexivity.
Qed.
(* a SOCKS5 client is answered on such a port as it is on a port of its own *)
Theorem C48_same_answers : forall resolve connect c flag room segs methods rest, (0 < room)%nat -> Forall (fun s => s <> []) segs ->
  List.concat segs = greeting methods ++ rest -> nlen methods < 256 -> (In 2 methods \/ user c = None \/ pass c = None) ->
  f_contains flag f_socks5 = true -> (f_contains flag f_http = true \/ f_contains flag f_https = true) ->
  exists i, detect flag room segs = ToSocks i /\ detect f_socks5 room segs = ToSocks ([], segs) /\
    filter (fun e => match e with EvForward _ => false | _ => true end) (fst (process resolve connect c i)) =
    filter (fun e => match e with EvForward _ => false | _ => true end) (fst (process resolve connect c ([], segs))).
Proof.
  intros resolve connect c flag room segs ms rest R A S L M F H.
  destruct (C48_choice flag room segs 5 (nlen ms :: ms ++ rest) R A S F H) as (i & E). change (5 =? 5) with true in E. cbn iota in E.
  exists i. split; [exact E|]. split; [reflexivity|]. destruct (C48_bytes flag room segs i A (or_intror E)) as [S1 A1].
  apply (C64_segmentation_partial resolve connect c i ([], segs) ms rest); [exact A1|exact A|rewrite S1; exact S|rewrite S1; reflexivity|exact L|exact M].
Qed.

Example C36_demo :
  basic (txt "user") (txt "pa") = txt "Basic dXNlcjpwYQ==" /\ check_basic_auth (txt "user") (txt "pa") (txt "Basic dXNlcjpwYQ==") = Ok true /\
  check_basic_auth (txt "user") (txt "pb") (txt "Basic dXNlcjpwYQ==") = Ok false /\ check_basic_auth (txt "user") (txt "pa") (txt "Bearer dXNlcjpwYQ==") = Ok true /\
  check_basic_auth (txt "user") (txt "pa") (txt "Basic dXNl!") = Panic /\ check_basic_auth (txt "user") (txt "pa") [] = Panic /\
  let c := HCfg (Some (txt "user")) (Some (txt "pa")) in
  let q1 := HReq false (Some (txt "a:80")) (Some (txt "Basic dXNlcjpwYQ==")) in
  let q2 := HReq false (Some (txt "b:80")) None in
  snd (h_run c fresh [(q2, true, None); (q1, true, Some true); (q2, true, Some true); (q1, true, Some true)]) =
    [([HDial (txt "b:80")], Ok (HStatus 407)); ([HDial (txt "a:80"); HSend (txt "a:80") None], Ok HBackend);
     ([HSend (txt "a:80") None], Ok HBackend); ([HSend (txt "a:80") (Some (txt "Basic dXNlcjpwYQ=="))], Ok HBackend)] /\ carries c q1.
Proof. repeat split; try (vm_compute; reflexivity). eexists. split; [reflexivity|vm_compute; reflexivity]. Qed.
Example C48_demo :
  detect 5 24 [[5; 1; 0]; [9]] = ToSocks ([5; 1; 0], [[9]]) /\ detect 5 2 [txt "GET /"; [9]] = ToHttp (txt "GE", [txt "T /"; [9]]) /\ detect 1 24 [[5]] = Nobody.
Proof. vm_compute. repeat split; reflexivity. Qed.

Print Assumptions C36_check.
Print Assumptions C36_accepted.
Print Assumptions C36_exact.
Print Assumptions C36_connection_partial.
Print Assumptions C36_dials_refuted.
Print Assumptions C36_later_refuted.
Print Assumptions C36_scheme_refuted.
Print Assumptions C36_colon_refuted.
Print Assumptions C36_crash_refuted.
Print Assumptions C65_target_refuted.
Print Assumptions C65_first_partial.
Print Assumptions C66_leak_refuted.
Print Assumptions C66_first_partial.
Print Assumptions C48_bytes.
Print Assumptions C48_choice.
Print Assumptions C48_same_answers.
