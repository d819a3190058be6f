(* C33-C35, C62-C64: the SOCKS5 server. *)
From Coq Require Import String.
From Verif Require Import Base Text AddrModel SocksModel SocksSpec SocksProofs.
Open Scope N_scope.

Section Props.
  Context (resolve : bytes -> N -> option (list saddr)) (connect : saddr -> bool).
  Notation process := (process resolve connect).

  (* C33: with a user name and a password configured, whatever a client sends and
     however it is cut into segments: if the server connects anywhere, forwards
     anything or opens a UDP association, then the client's bytes start with a
     greeting, the user/password exchange with exactly the configured credentials,
     and the request.  (A client that has not sent all of this yet is one of the
     inputs quantified over, so nothing happens before that either.) *)
  Theorem C33_auth : forall c u p i ev o e, user c = Some u -> pass c = Some p -> process c i = (ev, o) ->
    In e ev -> (forall b, e <> EvWrite b) ->
    exists methods request rest, sent i = greeting methods ++ credentials u p ++ request ++ rest /\ (4 < length request)%nat /\
      exists k ev', ev = [EvWrite [5; 2]; EvWrite [1; 0]] ++ ev' /\ nth_error ev' k = Some e.
  Proof.
    intros c u p i ev o e Hu Hp H I R. assert (R' : reaches e) by (destruct e; try exact Logic.I; exfalso; eapply R; reflexivity).
    destruct (process_sent resolve connect c i ev o e H I R') as (ms & auth & cmd & b & a & i' & A & B & S & _).
    rewrite Hu, Hp in A. destruct A as (_ & _ & ->). exists ms, (request_msg cmd b), (sent i'). split; [exact S|]. split.
    { unfold request_msg. rewrite app_length. destruct B; cbn [length]; rewrite ?app_length; lia. }
    unfold SocksModel.process, lift in H. destruct (read_head c i) as [[v i1]| |] eqn:E1.
    2,3: injection H as <- _; destruct I.
    destruct (read_head_sent _ _ _ _ E1) as (_ & _ & M2 & M3). destruct (v =? 255) eqn:E255.
    { injection H as <- _. destruct I as [<-|[]]. destruct R'. }
    destruct (N.eqb_spec v 2) as [->|N2].
    - destruct (read_verify c i1) as [[[] i2]| |] eqn:E2.
      + destruct (serve_request resolve connect c i2) as [e2 o2]. injection H as <- _. cbn in I. destruct I as [<-|[<-|I]]; [destruct R'|destruct R'|].
        apply In_nth_error in I. destruct I as [k K]. exists k, e2. split; [reflexivity|exact K].
      + injection H as <- _. cbn in I. destruct I as [<-|[<-|[]]]; destruct R'.
      + injection H as <- _. cbn in I. destruct I as [<-|[]]. destruct R'.
      + injection H as <- _. cbn in I. destruct I as [<-|[]]. destruct R'.
    - exfalso. destruct M3 as [->|[->| ->]]; [|congruence|discriminate]. destruct M2 as [M2 _]. specialize (M2 eq_refl).
      unfold with_password in M2. rewrite Hu, Hp in M2. discriminate.
  Qed.
  (* and a client that does so is served, however its bytes are cut into segments; what is
     forwarded is the end of what it sends after the request (which part: C62) *)
  Theorem C33_accepted : forall c u p methods a request rest i, user c = Some u -> pass c = Some p -> u <> [] -> p <> [] ->
    In 2 methods -> nlen methods < 256 -> asks resolve request a -> connect a = true ->
    alive i -> sent i = greeting methods ++ credentials u p ++ request_msg 1 request ++ rest ->
    exists early d, rest = early ++ d /\
      process c i = ([EvWrite [5; 2]; EvWrite [1; 0]; EvConnect a; EvWrite [5; 0; 0; 1; 0; 0; 0; 0; 0; 0]; EvForward d], Done).
  Proof.
    intros c u p ms a b rest i Hu Hp Nu Np M L A C AL S.
    destruct (dialogue resolve connect c i ms 1 a b rest) as (i' & (_ & R & _) & _ & D).
    - unfold usable. rewrite Hu, Hp. auto.
    - exact L.
    - auto.
    - exact A.
    - unfold auth_msg. rewrite Hu, Hp. split; [exact AL|]. split; [exact S|lia].
    - specialize (D []). unfold plus in D. rewrite app_nil_r, <- surjective_pairing in D. rewrite D. unfold answers, with_password. rewrite Hu, Hp.
      unfold after_request. change (1 =? 1) with true. cbn iota. rewrite C. exists (fst i'), (concat (snd i')). split; [symmetry; exact R|]. cbn [fst snd app]. rewrite app_nil_r. reflexivity.
  Qed.
  (* an empty user name or password in the configuration locks everybody out *)
  Theorem C33_empty_credentials : forall c u p i ev o e, user c = Some u -> pass c = Some p -> u = [] \/ p = [] ->
    process c i = (ev, o) -> In e ev -> exists b, e = EvWrite b.
  Proof.
    intros c u p i ev o e Hu Hp Z H I. destruct e as [b|a|b|a]; [eauto| | |]; exfalso;
      edestruct (process_sent resolve connect c i ev o _ H I Logic.I) as (ms & auth & cmd & b0 & a0 & i' & A & _);
      rewrite Hu, Hp in A; destruct A as (A1 & A2 & _); destruct Z; contradiction.
  Qed.

  (* C34: an address written by the server is read back as the same address,
     however it is cut into segments, and nothing after it is consumed *)
  Theorem C34_roundtrip : forall a rest i, addr_ok a -> alive i -> sent i = encode_addr a ++ rest -> fst i <> [] ->
    exists i', read_addr resolve i = Ok (a, i') /\ sent i' = rest.
  Proof.
    intros a rest i Ha AL S F. destruct (read_addr_ok resolve i a (encode_addr a) rest (encode_asks resolve a Ha)) as (i' & E & R).
    - split; [exact AL|]. split; [exact S|]. destruct (fst i); [congruence|rewrite nlen_cons'; lia].
    - exists i'. split; [exact E|apply R].
  Qed.
  (* a reply is passed on behind two zero bytes, fragment number zero and its sender as an
     address that needs no resolving, whether or not the relay still takes requests; read
     again it gives the sender and the reply *)
  Theorem C34_udp_roundtrip : forall replies p a d, addr_ok a ->
    exists request, (forall any, asks any request a) /\ udp_parse resolve ([0; 0; 0] ++ request ++ d) = Ok (0, a, d) /\
      forall s, s = URun (Some p) \/ s = UQuiet (Some p) ->
        udp_out replies s a d = (if replies p ([0; 0; 0] ++ request ++ d) then (s, [(p, [0; 0; 0] ++ request ++ d)]) else (UEnded, [])).
  Proof.
    intros replies p a d Ha. exists (encode_addr a). split; [intros any; apply encode_asks; exact Ha|]. split; [apply udp_parse_ok; apply encode_asks; exact Ha|].
    intros s [-> | ->]; reflexivity.
  Qed.
  (* the address connected to is the one the request asks for: the given IP address
     and port, or the first address the given name and port resolve to *)
  Theorem C34_target : forall c i ev o a, process c i = (ev, o) -> In (EvConnect a) ev ->
    exists before request rest, asks resolve request a /\ sent i = before ++ [5; 1; 0] ++ request ++ rest.
  Proof.
    intros c i ev o a H I. destruct (process_sent resolve connect c i ev o _ H I Logic.I) as (ms & auth & cmd & b & a' & i' & _ & B & S & E).
    cbn in E. destruct E as [-> ->]. exists (greeting ms ++ auth), b, (sent i'). split; [exact B|]. rewrite S. unfold request_msg. rewrite <- !app_assoc. reflexivity.
  Qed.
  Theorem C34_asks_one : forall b a a', asks resolve b a -> asks resolve b a' -> a = a'.
  Proof.
    assert (CUT : forall x y x' y' : bytes, length x = length x' -> x ++ y = x' ++ y' -> x = x' /\ y = y').
    { induction x as [|h x IH]; intros y [|h' x'] y' L E; cbn in *; try discriminate; [auto|].
      injection E as -> E. destruct (IH y x' y' ltac:(lia) E) as [-> ->]. auto. }
    intros b a a' [ip port L1 L2|ip port L1 L2|name port x l L2 Hr]; intros H; inversion H as [ip' port' M1 M2 E1|ip' port' M1 M2 E1|name' port' x' l' M2 Hr' E1]; subst; try discriminate.
    - destruct (CUT ip' port' ip port) as [-> ->]; [congruence|assumption|]. reflexivity.
    - destruct (CUT ip' port' ip port) as [-> ->]; [congruence|assumption|]. reflexivity.
    - assert (Q : name' = name /\ port' = port) by (apply CUT; [unfold nlen in *; lia|assumption]).
      destruct Q as [-> ->]. congruence.
  Qed.

  (* C35: false of the code: a client that closes before its greeting is complete
     crashes the task that serves it *)
  Theorem C35_cut_refuted : forall c i, alive i ->
    (sent i = [] \/ sent i = [5] \/ exists n methods, sent i = 5 :: n :: methods /\ nlen methods < n) -> process c i = ([], Crashed).
  Proof.
    intros c i AL H. unfold SocksModel.process, lift. rewrite (read_head_cut c i (sent i)); [reflexivity| |exact H].
    split; [exact AL|]. split; [reflexivity|lia].
  Qed.
  (* so does a name that resolves without error to no address *)
  Theorem C35_name_refuted : forall c i name port rest, user c = None -> alive i -> length port = 2%nat -> resolve name (value port) = Some [] ->
    sent i = greeting [0] ++ request_msg 1 (3 :: nlen name :: name ++ port) ++ rest -> process c i = ([EvWrite [5; 0]], Crashed).
  Proof.
    intros c i name port rest Hu AL L2 Hr S.
    destruct (read_head_ok c i [0] _ (conj AL (conj S (N.le_0_l _)))) as (i1 & E1 & R1); [reflexivity| |].
    { unfold with_password. rewrite Hu. discriminate. }
    assert (W : with_password c = false) by (unfold with_password; rewrite Hu; reflexivity). rewrite W in E1.
    unfold SocksModel.process, lift. rewrite E1. change (0 =? 255) with false. change (0 =? 2) with false. cbn iota.
    unfold serve_request, lift. unfold read_request. unfold request_msg in R1. cbn [app] in R1.
    destruct (need_rel 4 i1 _ R1) as [(L1 & i2 & -> & R2)|[L1 _]]; [|rewrite !nlen_cons' in L1; lia]. cbn [rbind].
    destruct (get8_rel 3 i2 _ _ R2) as (i3 & -> & R3). cbn [rbind]. change (negb (5 =? 5)) with false. cbn iota.
    destruct (get8_rel 2 i3 _ _ R3) as (i4 & -> & R4). cbn [rbind].
    destruct (get8_rel 1 i4 _ _ R4) as (i5 & -> & R5). cbn [rbind]. change (negb (0 =? 0)) with false. cbn iota.
    unfold read_addr. destruct (get8_rel 0 i5 _ _ R5) as (i6 & -> & R6). cbn [rbind]. change (3 =? 1) with false. change (3 =? 3) with true. cbn iota.
    destruct (need_rel 1 i6 _ R6) as [(L3 & i7 & -> & R7)|[L3 _]]; [|rewrite nlen_cons' in L3; lia]. cbn [rbind].
    destruct (get8_rel 0 i7 _ _ R7) as (i8 & -> & R8). cbn [rbind]. rewrite <- app_assoc in R8.
    destruct (need_rel (nlen name + 2) i8 _ R8) as [(L4 & i9 & -> & R9)|[L4 _]]; [|rewrite !nlen_app' in L4; unfold nlen in L4; lia]. cbn [rbind].
    rewrite (firstn_rel _ _ _ (nlen name) R9) by lia.
    destruct (advance_rel (nlen name) 2 i9 _ R9) as (i10 & -> & R10). cbn [rbind].
    unfold nlen in R10 at 1. rewrite Nat2N.id, skipn_app, skipn_all, Nat.sub_diag in R10. cbn [app skipn] in R10.
    destruct (getn_rel 2 0 i10 _ R10) as (i11 & -> & R11). cbn [rbind].
    unfold nlen. rewrite Nat2N.id, !firstn_app, L2, !Nat.sub_diag, !firstn_O, !app_nil_r.
    rewrite !firstn_all2 by lia. rewrite unbe_value, Hr. reflexivity.
  Qed.
  (* and a datagram of exactly three bytes crashes the UDP relay *)
  Theorem C35_datagram_refuted : (forall n p, resolve n p <> Some []) -> forall d, udp_parse resolve d = Panic <-> nlen d = 3.
  Proof. intros Hr d. apply udp_parse_panic. exact Hr. Qed.
  (* proved: a connection whose greeting is complete (or is no SOCKS5 greeting at
     all) never crashes, whatever follows and wherever it is cut, if the resolver
     never answers with an empty list *)
  Theorem C35_no_crash_partial : forall c i, alive i -> (forall n p, resolve n p <> Some []) ->
    ((exists methods rest, sent i = greeting methods ++ rest) \/ (exists v rest, sent i = v :: rest /\ v <> 5)) ->
    snd (process c i) <> Crashed.
  Proof.
    intros c i AL Hr H. assert (R : rel 0 i (sent i)) by (split; [exact AL|split; [reflexivity|lia]]).
    destruct H as [(ms & r & E)|(v & r & E & Hv)].
    - eapply process_no_crash with (ms := ms); [exact R|right; eauto|exact Hr].
    - eapply process_no_crash with (ms := []); [exact R|left; eauto|exact Hr].
  Qed.

  (* C62: false of the code: what the client sends in one segment with the end of its
     request never reaches the target, with and without credentials *)
  Theorem C62_early_data_refuted : forall c methods a request early later,
    usable c -> (with_password c = true -> In 2 methods) -> nlen methods < 256 -> asks resolve request a -> connect a = true ->
    process c (greeting methods ++ auth_msg c ++ request_msg 1 request ++ early, later) =
      (answers c ++ [EvConnect a; EvWrite [5; 0; 0; 1; 0; 0; 0; 0; 0; 0]; EvForward (concat later)], Done).
  Proof.
    intros c ms a b early later U M L A C.
    destruct (dialogue resolve connect c (greeting ms ++ auth_msg c ++ request_msg 1 b ++ early, []) ms 1 a b early U L M A) as (i' & R & Z & D).
    - apply rel_flat. lia.
    - specialize (D later). unfold plus in D at 1. cbn [fst snd app] in D. refine (eq_trans D _).
      unfold after_request. change (1 =? 1) with true. cbn iota. rewrite C. cbn [fst snd app].
      unfold plus. cbn [snd]. rewrite (Z eq_refl). reflexivity.
  Qed.
  (* proved: a client that waits for the reply loses nothing: if the dialogue ends
     with a segment, all later segments are forwarded *)
  Theorem C62_waiting_partial : forall c methods a request dialogue later,
    usable c -> (with_password c = true -> In 2 methods) -> nlen methods < 256 -> asks resolve request a -> connect a = true ->
    Forall (fun s => s <> []) dialogue -> List.concat dialogue = greeting methods ++ auth_msg c ++ request_msg 1 request ->
    process c ([], dialogue ++ later) =
      (answers c ++ [EvConnect a; EvWrite [5; 0; 0; 1; 0; 0; 0; 0; 0; 0]; EvForward (concat later)], Done).
  Proof.
    intros c ms a b dg later U M L A C AL S.
    destruct (dialogue resolve connect c ([], dg) ms 1 a b [] U L M A) as (i' & R & _ & D).
    - rewrite app_nil_r. split; [exact AL|]. split; [exact S|lia].
    - specialize (D later). unfold plus in D at 1. cbn [fst snd app] in D. refine (eq_trans D _).
      unfold after_request. change (1 =? 1) with true. cbn iota. rewrite C. cbn [fst snd app]. destruct R as (AL' & S' & _).
      unfold sent in S'. apply app_eq_nil in S'. destruct S' as [_ S']. unfold plus. cbn [snd]. rewrite concat_app, S'. reflexivity.
  Qed.

  (* C64: what a client is answered does not depend on how its bytes are cut into
     segments, provided it offers user/password or none is configured *)
  Theorem C64_segmentation_partial : forall c i j methods rest, alive i -> alive j -> sent i = greeting methods ++ rest -> sent j = sent i -> nlen methods < 256 ->
    (In 2 methods \/ user c = None \/ pass c = None) ->
    filter (fun e => match e with EvForward _ => false | _ => true end) (fst (process c i)) =
    filter (fun e => match e with EvForward _ => false | _ => true end) (fst (process c j)) /\
    (snd (process c i) = Done <-> snd (process c j) = Done) /\ (snd (process c i) = Crashed <-> snd (process c j) = Crashed).
  Proof.
    intros c i j ms rest A1 A2 S1 S2 L M. destruct (process_agree resolve connect c i j ms rest) as [H1 H2].
    - split; [exact A1|]. split; [exact S1|lia].
    - split; [exact A2|]. split; [congruence|lia].
    - exact L.
    - intros W. destruct M as [M|[M|M]]; [exact M| |]; unfold with_password in W; rewrite M in W; [discriminate|]. destruct (user c); discriminate.
    - split; [exact H1|]. destruct (snd (process c i)), (snd (process c j)); cbn in H2; try discriminate; split; split; intros; try reflexivity; discriminate.
  Qed.

  (* C63: false of the code: the relay's socket takes the first sender as its client,
     whoever that is; from then on it serves that one only *)
  Theorem C63_first_sender_refuted : forall sends replies stranger client request target data d es, asks resolve request target -> stranger <> client -> sends target data = true ->
    let s := fst (udp_in resolve sends (URun None) stranger ([0; 0; 0] ++ request ++ data)) in
    udp_in resolve sends (URun None) stranger ([0; 0; 0] ++ request ++ data) = (URun (Some stranger), [(target, data)]) /\
    udp_in resolve sends s client d = (s, []) /\
    Forall (fun u => match u with ToTarget from _ _ => from = stranger | ToPeer _ to _ => to = stranger end) (snd (urun resolve sends replies s es)).
  Proof.
    intros sends replies st cl b tg data d es A Hn HS. assert (E : udp_in resolve sends (URun None) st ([0; 0; 0] ++ b ++ data) = (URun (Some st), [(tg, data)])).
    { unfold udp_in. rewrite (udp_parse_ok resolve 0 0 0 b tg data A). cbn [N.eqb]. rewrite HS. reflexivity. }
    cbv zeta. rewrite E. cbn [fst]. split; [reflexivity|]. split.
    - unfold udp_in. destruct (ip_eqb (sa_ip st) (sa_ip cl) && (sa_port st =? sa_port cl)) eqn:Q; [apply saddr_eqb in Q; contradiction|reflexivity].
    - apply urun_peer. auto.
  Qed.
  (* a malformed datagram from anybody ends it *)
  Theorem C63_malformed_refuted : forall sends replies stranger d es, nlen d < 3 -> 
    fst (udp_in resolve sends (URun None) stranger d) = UEnded /\ snd (urun resolve sends replies UEnded es) = [].
  Proof.
    intros sends replies st d es L. split.
    - unfold udp_in, udp_parse. replace (nlen d <? 3) with true by (symmetry; apply N.ltb_lt; exact L). reflexivity.
    - induction es as [|e es IH]; [reflexivity|]. cbn [urun]. destruct e as [from x|from x]; cbn [ustep udp_in udp_out];
        destruct (urun resolve sends replies UEnded es); cbn in *; assumption.
  Qed.
  (* proved: one relay never mixes two clients: all datagrams it sends on come from
     one address and all replies go to that address *)
  Theorem C63_one_client_partial : forall sends replies es, exists p, Forall (by_peer p) (snd (urun resolve sends replies (URun None) es)).
  Proof. intros sends replies es. apply urun_one_peer. Qed.
  (* and what is relayed is the payload, to the address in the header; replies carry
     their sender's address and are otherwise unchanged *)
  Theorem C63_content : forall sends s from d to x, In (to, x) (snd (udp_in resolve sends s from d)) ->
    exists r1 r2 request, asks resolve request to /\ d = [r1; r2; 0] ++ request ++ x.
  Proof.
    intros sends s from d to x H. unfold udp_in in H. destruct s as [peer|peer|]; try destruct H.
    destruct (match peer with Some _ => _ | None => true end); [|destruct H].
    destruct (udp_parse resolve d) as [[[f a] y]| |] eqn:E; try destruct H.
    destruct (N.eqb_spec f 0) as [->|]; [|destruct H]. destruct (sends a y); [|destruct H]. destruct H as [H|[]]. injection H as -> ->. apply udp_parse_sent. exact E.
  Qed.
End Props.

(* concrete dialogues: user a, password bc; CONNECT 1.2.3.4:80 and localhost:80 *)
Definition demo_resolve (n : bytes) (p : N) : option (list saddr) :=
  if leqb n (txt "localhost") then Some [SAddr (V4 2130706433) p] else if leqb n (txt "none") then Some [] else None.
Definition demo_auth : scfg := SCfg (Some (txt "a")) (Some (txt "bc")) (Some (V4 1)).
Definition demo_open : scfg := SCfg None None None.
Definition demo_dialogue (pw : string) : bytes :=
  greeting [0; 2] ++ credentials (txt "a") (txt pw) ++ request_msg 1 ([1; 1; 2; 3; 4] ++ [0; 80]).
Example C33_demo :
  process demo_resolve (fun _ => true) demo_auth ([], [[5]; [2; 0]; skipn 3 (demo_dialogue "bc"); [9; 9]]) =
    ([EvWrite [5; 2]; EvWrite [1; 0]; EvConnect (SAddr (V4 16909060) 80); EvWrite [5; 0; 0; 1; 0; 0; 0; 0; 0; 0]; EvForward [9; 9]], Done) /\
  process demo_resolve (fun _ => true) demo_auth ([], [demo_dialogue "bd"]) = ([EvWrite [5; 2]; EvWrite [1; 1]], Failed EVerify) /\
  process demo_resolve (fun _ => true) demo_auth ([], [greeting [0]]) = ([EvWrite [5; 255]], Failed EVerify) /\
  asks demo_resolve (3 :: 9 :: txt "localhost" ++ [0; 80]) (SAddr (V4 2130706433) 80).
Proof. repeat split; try (vm_compute; reflexivity). change 9 with (nlen (txt "localhost")). econstructor; reflexivity. Qed.
Example C35_demo :
  process demo_resolve (fun _ => true) demo_open ([], [[5; 3]; [0]]) = ([], Crashed) /\
  process demo_resolve (fun _ => true) demo_open ([], [greeting [0] ++ request_msg 1 (3 :: 4 :: txt "none" ++ [0; 80])]) = ([EvWrite [5; 0]], Crashed) /\
  udp_parse demo_resolve [0; 0; 0] = Panic.
Proof. vm_compute. repeat split; reflexivity. Qed.
Example C62_demo : usable demo_auth /\ with_password demo_auth = true /\ In 2 [0; 2] /\
  process demo_resolve (fun _ => true) demo_auth (demo_dialogue "bc" ++ [7; 7], [[9; 9]]) =
    ([EvWrite [5; 2]; EvWrite [1; 0]; EvConnect (SAddr (V4 16909060) 80); EvWrite [5; 0; 0; 1; 0; 0; 0; 0; 0; 0]; EvForward [9; 9]], Done).
Proof. split; [split; discriminate|]. split; [reflexivity|]. split; [right; left; reflexivity|]. vm_compute. reflexivity. Qed.
Example C34_cases : let a := SAddr (V4 16909060) 80 in let i := ([1; 1], [[2; 3]; [4; 0; 80; 9]]) in
  addr_ok a /\ alive i /\ sent i = encode_addr a ++ [9] /\ read_addr demo_resolve i = Ok (a, ([9], [])) /\
  encode_addr (SAddr (V6 1) 443) = 4 :: repeat 0 15 ++ [1; 1; 187] /\
  udp_parse demo_resolve ([0; 0; 0] ++ encode_addr a ++ [7]) = Ok (0, a, [7]).
Proof. split; [split; vm_compute; reflexivity|]. split; [repeat constructor; discriminate|]. repeat split; vm_compute; reflexivity. Qed.
Example C64_case : let whole := demo_dialogue "bc" in let i := ([], [whole]) in let j := ([], [[5]; [2; 0]; skipn 3 whole]) in
  alive i /\ alive j /\ sent j = sent i /\ (exists rest, sent i = greeting [0; 2] ++ rest) /\
  process demo_resolve (fun _ => true) demo_auth i = process demo_resolve (fun _ => true) demo_auth j.
Proof.
  cbv zeta. split; [repeat constructor; discriminate|]. split; [repeat constructor; discriminate|]. split; [vm_compute; reflexivity|].
  split; [eexists; vm_compute; reflexivity|vm_compute; reflexivity].
Qed.
(* C64: without that proviso the answer depends on the segmentation: the server
   looks for user/password in everything it has received, not in the methods *)
Theorem C64_segmentation_refuted : forall resolve connect c ms rest, user c <> None -> pass c <> None -> ~ In 2 ms -> In 2 rest ->
  process resolve connect c ([], [greeting ms; rest]) = ([EvWrite [5; 255]], Failed EVerify) /\
  exists es, fst (process resolve connect c ([], [greeting ms ++ rest])) = EvWrite [5; 2] :: es.
Proof.
  intros resolve connect c ms rest U P M R.
  assert (W : with_password c = true) by (unfold with_password; destruct (user c); [|contradiction]; destruct (pass c); [reflexivity|contradiction]).
  assert (X : forall seg l, snd (read_len 2 ([], (5 :: seg) :: l)) = match seg with [] => snd (read_len 2 ([5], l)) | _ => (5 :: seg, l) end).
  { intros seg l. unfold read_len. cbn [fst snd]. cbn [read_len_go]. change (2 <=? nlen []) with false. cbn iota. cbn [app]. destruct seg as [|n seg]; [reflexivity|].
    destruct l as [|l0 l]; cbn [read_len_go]; rewrite !nlen_cons; replace (2 <=? 1 + (1 + nlen seg)) with true by lia; reflexivity. }
  assert (H : forall more l, read_head c ([], (greeting ms ++ more) :: l) = Ok (if existsb (fun b => b =? 2) (ms ++ more) then 2 else 255, (more, l))).
  { intros more l. unfold read_head, greeting. cbn [app]. specialize (X (nlen ms :: ms ++ more) l). destruct (read_len 2 ([], (5 :: nlen ms :: ms ++ more) :: l)) as [ok i]. cbn [snd] in X. subst i.
    unfold get8. cbn [fst snd rbind]. change (negb (5 =? 5)) with false. cbn iota.
    unfold read_len. cbn [fst snd]. replace (read_len_go (nlen ms) (ms ++ more) l) with (true, (ms ++ more, l)).
    2:{ destruct l; cbn [read_len_go]; rewrite nlen_app; replace (nlen ms <=? nlen ms + nlen more) with true by lia; reflexivity. }
    rewrite W. unfold advance. cbn [fst snd]. rewrite nlen_app. replace (nlen ms + nlen more <? nlen ms) with false by lia. cbn [rbind].
    unfold nlen. rewrite Nat2N.id, skipn_app, skipn_all, Nat.sub_diag. reflexivity. }
  assert (F : existsb (fun b => b =? 2) ms = false).
  { destruct (existsb (fun b => b =? 2) ms) eqn:E; [|reflexivity]. apply existsb_exists in E as (x & I & E). apply N.eqb_eq in E. subst x. contradiction. }
  assert (G : existsb (fun b => b =? 2) (ms ++ rest) = true) by (apply existsb_exists; exists 2; split; [apply in_or_app; now right|reflexivity]).
  split.
  - unfold process. specialize (H [] [rest]). rewrite (app_nil_r ms), F in H. replace (greeting ms ++ []) with (greeting ms) in H by (symmetry; apply app_nil_r).
    match goal with |- context[read_head c ?i] => assert (H' : read_head c i = Ok (255, ([], [rest]))) by exact H end. rewrite H'. reflexivity.
  - unfold process. rewrite H, G. unfold lift. change (2 =? 255) with false. change (2 =? 2) with true. cbn iota.
    match goal with |- context[read_verify c ?i] => destruct (read_verify c i) as [[ok j]|e|] end; [|eexists; reflexivity|eexists; reflexivity].
    destruct ok; [destruct (serve_request resolve connect c j)|]; eexists; reflexivity.
Qed.
Example C64_segmentation_case : user demo_auth <> None /\ pass demo_auth <> None /\ ~ In 2 [0] /\ In 2 [2].
Proof. repeat split; try discriminate; [|now left]. intros [X|[]]. discriminate X. Qed.
Example C63_demo : let v := SAddr (V4 5) 1000 in let c := SAddr (V4 6) 2000 in let t := SAddr (V4 16909060) 53 in
  udp_in demo_resolve (fun _ _ => true) (URun None) c ([0; 0; 0] ++ encode_addr t ++ [7]) = (URun (Some c), [(t, [7])]) /\
  snd (urun demo_resolve (fun _ _ => true) (fun _ _ => true) (URun None) [FromClientSide v ([0; 0; 0] ++ encode_addr t ++ [7]); FromClientSide c ([0; 0; 0] ++ encode_addr t ++ [8]); FromTarget t [9]]) =
    [ToTarget v t [7]; ToPeer t v ([0; 0; 0] ++ encode_addr t ++ [9])].
Proof. vm_compute. split; reflexivity. Qed.

Print Assumptions C33_auth.
Print Assumptions C33_accepted.
Print Assumptions C33_empty_credentials.
Print Assumptions C34_roundtrip.
Print Assumptions C34_udp_roundtrip.
Print Assumptions C34_target.
Print Assumptions C34_asks_one.
Print Assumptions C35_cut_refuted.
Print Assumptions C35_name_refuted.
Print Assumptions C35_datagram_refuted.
Print Assumptions C35_no_crash_partial.
Print Assumptions C62_early_data_refuted.
Print Assumptions C62_waiting_partial.
Print Assumptions C63_first_sender_refuted.
Print Assumptions C63_malformed_refuted.
Print Assumptions C63_one_client_partial.
Print Assumptions C63_content.
Print Assumptions C64_segmentation_partial.
Print Assumptions C64_segmentation_refuted.
