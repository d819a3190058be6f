(* C187: who is served by a proxy command line. *)
From Coq Require Import String.
From Verif Require Import Base Text TextOps AddrModel ConfModel ProtModel CoreModel CoreProps SocksModel SocksSpec SocksProofs SocksProps HttpProxyModel HttpProxyProofs HttpProxyProps ArgModel ArgProps OpModel OpSpec OpProofs OpProps BuModel PlModel PlSpec PlProps PxModel.
Open Scope N_scope.

Section C187.
  Context (parse_ip : text -> option ipaddr) (parse_sa : text -> option saddr) (local4 local6 : option ipaddr).
  Notation reads := (reads parse_ip parse_sa local4 local6).
  Context (read_file : text -> option text) (yaml toml : text -> option (@copt (list (text * list val))))
          (load_http : asection -> option asection) (load_stream : asection -> asection) (show_sa : saddr -> text).
  Notation asked_start := (asked_start parse_ip parse_sa local4 local6 read_file yaml toml load_http load_stream show_sa).
  Context (read : text -> option (list pem)) (own_certs : list N) (own_key : N)
          (pair_ok : list N -> N -> bool) (root_ok : N -> bool) (can_bind : saddr -> bool) (reach : text -> bool -> bool).
  Notation proxy_ports := (proxy_ports read own_certs own_key pair_ok root_ok can_bind reach).
  Context (requests : inp -> list (hreq * bool * option bool)) (resolve : bytes -> N -> option (list saddr)) (connect : saddr -> bool).
  Notation deal_client := (deal_client requests resolve connect).
  Notation deal_proxy := (deal_proxy requests resolve connect).

  (* the protocols of --flag: HTTP and HTTPS are the bits 0 and 1, SOCKS5 is bit 2 *)
  Definition takes_http (f : N) : Prop := N.testbit f 0 = true \/ N.testbit f 1 = true.
  Definition takes_socks (f : N) : Prop := N.testbit f 2 = true.
  (* the header value v names the user u and the password p: two words or more, the second
     the base64 form of u:p *)
  Definition names_user (u p : bytes) (v : text) : Prop :=
    exists scheme more, split_ws v = scheme :: b64_encode (u ++ 58 :: p) :: more.
  (* something is passed on for the client *)
  Definition passes_on (ev : list hev) : Prop := exists h, (exists auth, In (HSend h auth) ev) \/ In (HTunnel h) ev.

  Lemma has_bit f : (f_contains f f_http = N.testbit f 0) /\ (f_contains f f_https = N.testbit f 1) /\ (f_contains f f_socks5 = N.testbit f 2).
  Proof.
    assert (G : forall k, (N.land f (2 ^ k) =? 2 ^ k) = N.testbit f k).
    { intros k. destruct (N.testbit f k) eqn:E.
      - apply N.eqb_eq. apply N.bits_inj. intros j. rewrite N.land_spec, N.pow2_bits_eqb. destruct (N.eqb_spec k j) as [<-|]; [now rewrite E|apply andb_false_r].
      - apply N.eqb_neq. intros X. assert (Y : N.testbit (N.land f (2 ^ k)) k = true) by (rewrite X; apply N.pow2_bits_true). rewrite N.land_spec, E in Y. discriminate. }
    split; [exact (G 0)|split; [exact (G 1)|exact (G 2)]].
  Qed.
  Lemma http_on f : has_http f = true <-> takes_http f.
  Proof. destruct (has_bit f) as (A & B & _). unfold has_http, takes_http. rewrite A, B. apply orb_true_iff. Qed.
  Lemma line argv ws o b : asked_start argv (txt "proxy" :: ws) = Some o -> proxy_ports o = BOk b ->
    exists os x, spelled ws (flat_map written os) /\ o_proxy o = Some x /\ section_by reads os (section_of x) /\
      b_tunnel b = match bu_bind (section_of x), bu_server (section_of x) with Some _, Some _ => true | _, _ => false end.
  Proof.
    intros H P. destruct (C178_section _ _ _ _ _ _ _ _ _ _ _ _ _ H) as (os & x & S & Ex & B & _). exists os, x. split; [exact S|]. split; [exact Ex|]. split; [exact B|].
    unfold PlModel.proxy_ports in P. rewrite Ex in P. clear - P. unfold proxy_start in P. cbn [to_pconf p_bind p_server] in P. destruct (get_tls_accept _ _ _ _ _ _); try discriminate P;
      destruct (bu_bind (section_of x)), (bu_server (section_of x)); try (match type of P with context [reach ?a ?c] => destruct (reach a c) end; try discriminate P);
      (match type of P with context [listens ?a ?c] => destruct (listens a c) end; try discriminate P); injection P as <-; reflexivity.
  Qed.
  Lemma said_one n os v w : said n os v -> said n os w -> v = w.
  Proof. unfold said. destruct v as [v|], w as [w|]; intros E1 E2; congruence. Qed.

  (* C187: with --user u and --pass p and without --server a client gets nothing passed on
     unless it names them: over HTTP in a request of the connection up to then, over SOCKS5
     in the exchange its bytes start with; and a protocol that --flag leaves out is not
     served.  Missing: over HTTP the target of a request without them is connected to
     nevertheless (C36_dials_refuted). *)
  Theorem C187_needs_login_partial : forall argv ws o b, asked_start argv (txt "proxy" :: ws) = Some o -> proxy_ports o = BOk b ->
    exists os f, spelled ws (flat_map written os) /\ means reads (Or TFlag (VFlag (1 + 2 + 4))) (given "flag" os) [VFlag f] /\
    (given "server" os = [] -> forall room segs, Forall (fun s => s <> []) segs ->
     match deal_client o b room segs with
     | GTunnel _ => False
     | GHttp l => takes_http f /\ exists i, sent i = List.concat segs /\
         forall u p, said "user" os (Some u) -> said "pass" os (Some p) -> bytes_ok u = true -> bytes_ok p = true ->
         forall k ev a, nth_error l k = Some (ev, a) -> passes_on ev ->
           exists j q d r v, (j <= k)%nat /\ nth_error (requests i) j = Some (q, d, r) /\ q_auth q = Some v /\ names_user u p v
     | GSocks (ev, _) => takes_socks f /\
         forall u p, said "user" os (Some u) -> said "pass" os (Some p) ->
         forall e, In e ev -> (forall w, e <> EvWrite w) ->
           exists methods rest, List.concat segs = greeting methods ++ credentials u p ++ rest
     | GNobody => True
     end).
  Proof.
    intros argv ws o b H P. destruct (line _ _ _ _ H P) as (os & x & S & Ex & B & T). destruct B as (_ & _ & _ & Fl & Sv & Us & Pa & _).
    exists os, (bu_flag (section_of x)). split; [exact S|]. split; [exact Fl|]. intros NS room segs A.
    assert (Z : bu_server (section_of x) = None) by (apply (said_one "server" os); [exact Sv|exact NS]).
    rewrite Z in T. unfold PxModel.deal_client. replace (b_tunnel b) with false by (rewrite T; now destruct (bu_bind (section_of x))). rewrite Ex. unfold PxModel.deal_proxy.
    set (s := section_of x) in *. destruct (detect (bu_flag s) room segs) as [i|i| |] eqn:D; try exact I.
    - destruct (C48_bytes _ _ _ _ A (or_introl D)) as (Se & _). split.
      + apply http_on. unfold detect in D. destruct (has_http (bu_flag s)); [reflexivity|]. unfold to_socks in D. destruct (f_contains _ _); discriminate D.
      + exists i. split; [exact Se|]. intros u p Hu Hp Bu Bp k ev a Nk Po.
        destruct (C36_connection_partial (HCfg (bu_user s) (bu_pass s)) (requests i) k ev a Nk Po) as (j & q & d & r & L & Nj & C).
        destruct (C u p) as (v & Ev & Ch); [cbn [h_user]; exact (said_one _ _ _ _ Us Hu)|cbn [h_pass]; exact (said_one _ _ _ _ Pa Hp)|].
        apply (C36_check u p v Bu Bp) in Ch as (sch & more & Ch & _). exists j, q, d, r, v. split; [exact L|]. split; [exact Nj|]. split; [exact Ev|]. exists sch, more. exact Ch.
    - destruct (C48_bytes _ _ _ _ A (or_intror D)) as (Se & _). destruct (process resolve connect (SCfg (bu_user s) (bu_pass s) (bu_udp s)) i) as [ev out] eqn:E. split.
      + unfold takes_socks. rewrite <- (proj2 (proj2 (has_bit (bu_flag s)))). unfold detect, to_socks in D. destruct (f_contains (bu_flag s) f_socks5); [reflexivity|]. exfalso.
        destruct (has_http (bu_flag s)); [|discriminate D]. destruct segs as [|y ys]; [discriminate D|]. destruct (firstn room y) as [|z zs]; [discriminate D|]. destruct (z =? 5); discriminate D.
      + intros u p Hu Hp e Ie Ne.
        destruct (C33_auth resolve connect (SCfg (bu_user s) (bu_pass s) (bu_udp s)) u p i ev out e) as (ms & rq & rest & Eq & _); try assumption.
        * cbn [user]. exact (said_one _ _ _ _ Us Hu).
        * cbn [pass]. exact (said_one _ _ _ _ Pa Hp).
        * exists ms, (rq ++ rest). rewrite <- Se. exact Eq.
  Qed.
  (* and a SOCKS5 client that names them and asks for a target that can be reached is
     connected to it, however its bytes are cut, if --flag has SOCKS5 *)
  Theorem C187_admitted : forall argv ws o b, asked_start argv (txt "proxy" :: ws) = Some o -> proxy_ports o = BOk b ->
    exists os f, spelled ws (flat_map written os) /\ means reads (Or TFlag (VFlag (1 + 2 + 4))) (given "flag" os) [VFlag f] /\
    (given "server" os = [] -> takes_socks f -> forall u p, said "user" os (Some u) -> said "pass" os (Some p) -> u <> [] -> p <> [] ->
     forall room segs methods a request rest, (0 < room)%nat -> Forall (fun s => s <> []) segs -> In 2 methods -> nlen methods < 256 ->
     asks resolve request a -> connect a = true ->
     List.concat segs = greeting methods ++ credentials u p ++ request_msg 1 request ++ rest ->
     exists early d, rest = early ++ d /\
       deal_client o b room segs = GSocks ([EvWrite [5; 2]; EvWrite [1; 0]; EvConnect a; EvWrite [5; 0; 0; 1; 0; 0; 0; 0; 0; 0]; EvForward d], Done)).
  Proof.
    intros argv ws o b H P. destruct (line _ _ _ _ H P) as (os & x & S & Ex & B & T). destruct B as (_ & _ & _ & Fl & Sv & Us & Pa & _).
    exists os, (bu_flag (section_of x)). split; [exact S|]. split; [exact Fl|]. intros NS F u p Hu Hp Nu Np room segs ms a rq rest R A M L As C Eq.
    assert (Z : bu_server (section_of x) = None) by (apply (said_one "server" os); [exact Sv|exact NS]).
    rewrite Z in T. unfold PxModel.deal_client. replace (b_tunnel b) with false by (rewrite T; now destruct (bu_bind (section_of x))). rewrite Ex. unfold PxModel.deal_proxy.
    set (s := section_of x) in *. unfold takes_socks in F. rewrite <- (proj2 (proj2 (has_bit (bu_flag s)))) in F.
    destruct (detect_choice (bu_flag s) room segs 5 (nlen ms :: ms ++ credentials u p ++ request_msg 1 rq ++ rest) R A Eq) as (i & D).
    change (5 =? 5) with true in D. cbn iota in D. unfold to_socks in D. rewrite F in D.
    assert (D' : detect (bu_flag s) room segs = ToSocks i) by (destruct (has_http (bu_flag s)); exact D). rewrite D'.
    destruct (C48_bytes _ _ _ _ A (or_intror D')) as (Se & AL).
    destruct (C33_accepted resolve connect (SCfg (bu_user s) (bu_pass s) (bu_udp s)) u p ms a rq rest i) as (e & d & E & Pr); try assumption.
    - cbn [user]. exact (said_one _ _ _ _ Us Hu).
    - cbn [pass]. exact (said_one _ _ _ _ Pa Hp).
    - rewrite Se. exact Eq.
    - exists e, d. split; [exact E|]. now rewrite Pr.
  Qed.
  (* a UDP association is opened for a client that asks for one when there is --udp-bind, at
     its address, and otherwise none is *)
  Theorem C187_udp : forall argv ws o b, asked_start argv (txt "proxy" :: ws) = Some o -> proxy_ports o = BOk b ->
    exists os f ip, spelled ws (flat_map written os) /\ means reads (Or TFlag (VFlag (1 + 2 + 4))) (given "flag" os) [VFlag f] /\
    means reads (May TIp) (given "udp-bind" os) (may VIp ip) /\
    (forall room segs ev out x, deal_client o b room segs = GSocks (ev, out) -> In (EvAssociate x) ev -> ip = Some x) /\
    (given "server" os = [] -> takes_socks f -> forall u p, said "user" os u -> said "pass" os p -> u <> Some [] -> p <> Some [] ->
     forall x, ip = Some x -> forall room segs methods a request rest, (0 < room)%nat -> Forall (fun s => s <> []) segs -> In 2 methods -> nlen methods < 256 ->
     asks resolve request a ->
     List.concat segs = greeting methods ++ match u, p with Some u, Some p => credentials u p | _, _ => [] end ++ request_msg 3 request ++ rest ->
     exists said_back, deal_client o b room segs = GSocks (map EvWrite said_back ++ [EvAssociate x], Done)).
  Proof.
    intros argv ws o b H P. destruct (line _ _ _ _ H P) as (os & x & S & Ex & B & T). destruct B as (_ & _ & _ & Fl & Sv & Us & Pa & Ud & _).
    exists os, (bu_flag (section_of x)), (bu_udp (section_of x)). split; [exact S|]. split; [exact Fl|]. split; [exact Ud|]. split.
    - intros room segs ev out y D I. unfold PxModel.deal_client in D. destruct (b_tunnel b); [discriminate D|]. rewrite Ex in D. unfold PxModel.deal_proxy in D.
      destruct (detect _ room segs) as [i|i| |]; try discriminate D. injection D as D. destruct (process_sent _ _ _ _ _ _ _ D I Logic.I) as (ms & au & cmd & q & a & i' & _ & _ & _ & _ & E). exact E.
    - intros NS F u p Hu Hp Nu Np y Ey room segs ms a rq rest R A M L As Eq.
      assert (Z : bu_server (section_of x) = None) by (apply (said_one "server" os); [exact Sv|exact NS]).
      rewrite Z in T. unfold PxModel.deal_client. replace (b_tunnel b) with false by (rewrite T; now destruct (bu_bind (section_of x))). rewrite Ex. unfold PxModel.deal_proxy.
      set (s := section_of x) in *. unfold takes_socks in F. rewrite <- (proj2 (proj2 (has_bit (bu_flag s)))) in F.
      assert (Eu : bu_user s = u) by exact (said_one _ _ _ _ Us Hu). assert (Ep : bu_pass s = p) by exact (said_one _ _ _ _ Pa Hp).
      destruct (detect_choice (bu_flag s) room segs 5 (nlen ms :: ms ++ match u, p with Some u, Some p => credentials u p | _, _ => [] end ++ request_msg 3 rq ++ rest) R A Eq) as (i & D).
      change (5 =? 5) with true in D. cbn iota in D. unfold to_socks in D. rewrite F in D.
      assert (D' : detect (bu_flag s) room segs = ToSocks i) by (destruct (has_http (bu_flag s)); exact D). rewrite D'.
      destruct (C48_bytes _ _ _ _ A (or_intror D')) as (Se & AL). rewrite Eu, Ep. set (c := SCfg u p (bu_udp s)).
      destruct (dialogue resolve connect c i ms 3 a rq rest) as (i' & _ & _ & Dl); try assumption.
      + unfold SocksSpec.usable, c. cbn [user pass]. destruct u as [u|]; [|exact I]. destruct p as [p|]; [|exact I]. split; intros ->; [now apply Nu|now apply Np].
      + auto.
      + unfold auth_msg, c. cbn [user pass]. split; [exact AL|]. split; [rewrite Se; exact Eq|lia].
      + specialize (Dl []). unfold plus in Dl. rewrite app_nil_r, <- surjective_pairing in Dl. rewrite Dl.
        unfold after_request. change (3 =? 1) with false. change (3 =? 2) with false. change (3 =? 3) with true. cbn iota. replace (bind_ip c) with (Some y) by (symmetry; exact Ey). cbn [fst snd].
        rewrite answers_if. destruct (with_password c); [exists [[5; 2]; [1; 0]]|exists [[5; 0]]]; reflexivity.
  Qed.
  (* False of the code: with --server the clients of this instance are not asked for
     anything, whatever --user and --pass say: their bytes go into the tunnel as they are. *)
  Theorem C187_server_refuted : forall argv ws o b, asked_start argv (txt "proxy" :: ws) = Some o -> proxy_ports o = BOk b ->
    exists os, spelled ws (flat_map written os) /\
    ((exists sv, said "server" os (Some sv)) -> (exists a, names reads "bind" TAddr os a) -> forall room segs, deal_client o b room segs = GTunnel segs).
  Proof.
    intros argv ws o b H P. destruct (line _ _ _ _ H P) as (os & x & S & Ex & B & T). destruct B as (_ & Bi & _ & _ & Sv & _).
    exists os. split; [exact S|]. intros (sv & X) (a & Y) room segs. apply Bi in Y. rewrite Y, (said_one _ _ _ _ Sv X) in T. unfold PxModel.deal_client. now rewrite T.
  Qed.
  (* False of the code: with only one of --user and --pass nobody is asked for it: a SOCKS5
     client that names nothing is connected, and so is the target of a request without the
     header. *)
  Theorem C187_half_refuted : forall argv ws o b, asked_start argv (txt "proxy" :: ws) = Some o -> proxy_ports o = BOk b ->
    exists os f, spelled ws (flat_map written os) /\ means reads (Or TFlag (VFlag (1 + 2 + 4))) (given "flag" os) [VFlag f] /\
    (given "server" os = [] -> said "user" os None \/ said "pass" os None -> forall room segs, (0 < room)%nat -> Forall (fun s => s <> []) segs ->
     (takes_socks f -> forall methods a request rest, nlen methods < 256 -> asks resolve request a -> connect a = true ->
      List.concat segs = greeting methods ++ request_msg 1 request ++ rest ->
      exists early d, rest = early ++ d /\
        deal_client o b room segs = GSocks ([EvWrite [5; 0]; EvConnect a; EvWrite [5; 0; 0; 1; 0; 0; 0; 0; 0; 0]; EvForward d], Done)) /\
     (takes_http f -> forall c rest, List.concat segs = c :: rest -> c <> 5 ->
      exists i l, sent i = List.concat segs /\ deal_client o b room segs = GHttp l /\
        forall q h qs, requests i = (q, true, Some true) :: qs -> q_host q = Some h -> q_connect q = false ->
          exists l', l = ([HDial h; HSend h (q_auth q)], Ok HBackend) :: l')).
  Proof.
    intros argv ws o b H P. destruct (line _ _ _ _ H P) as (os & x & S & Ex & B & T). destruct B as (_ & _ & _ & Fl & Sv & Us & Pa & _).
    exists os, (bu_flag (section_of x)). split; [exact S|]. split; [exact Fl|]. intros NS Hf room segs R A.
    assert (Z : bu_server (section_of x) = None) by (apply (said_one "server" os); [exact Sv|exact NS]).
    rewrite Z in T. unfold PxModel.deal_client. replace (b_tunnel b) with false by (rewrite T; now destruct (bu_bind (section_of x))). rewrite Ex. unfold PxModel.deal_proxy.
    set (s := section_of x) in *. split.
    - intros F ms a rq rest L As C Eq. unfold takes_socks in F. rewrite <- (proj2 (proj2 (has_bit (bu_flag s)))) in F.
      destruct (detect_choice (bu_flag s) room segs 5 (nlen ms :: ms ++ request_msg 1 rq ++ rest) R A Eq) as (i & D).
      change (5 =? 5) with true in D. cbn iota in D. unfold to_socks in D. rewrite F in D.
      assert (D' : detect (bu_flag s) room segs = ToSocks i) by (destruct (has_http (bu_flag s)); exact D). rewrite D'.
      destruct (C48_bytes _ _ _ _ A (or_intror D')) as (Se & AL). set (c := SCfg (bu_user s) (bu_pass s) (bu_udp s)).
      assert (W : with_password c = false /\ auth_msg c = [] /\ SocksSpec.usable c).
      { unfold with_password, auth_msg, SocksSpec.usable, c. cbn [user pass]. destruct Hf as [Hf|Hf].
        - rewrite (said_one _ _ _ _ Us Hf). auto.
        - rewrite (said_one _ _ _ _ Pa Hf). destruct (bu_user s); auto. }
      destruct W as (W & Au & Ub).
      destruct (dialogue resolve connect c i ms 1 a rq rest) as (i' & (_ & Ri & _) & _ & Dl); try assumption.
      + intros X. congruence.
      + rewrite Au. split; [exact AL|]. split; [rewrite Se; exact Eq|lia].
      + specialize (Dl []). unfold plus in Dl. rewrite app_nil_r, <- surjective_pairing in Dl. rewrite Dl. rewrite answers_if. rewrite W.
        unfold after_request. change (1 =? 1) with true. cbn iota. rewrite C. exists (fst i'), (List.concat (snd i')). split; [symmetry; exact Ri|]. cbn [fst snd app]. rewrite app_nil_r. reflexivity.
    - intros F c rest Eq N5. apply http_on in F. destruct (detect_choice (bu_flag s) room segs c rest R A Eq) as (i & D). rewrite F in D.
      replace (c =? 5) with false in D by (symmetry; now apply N.eqb_neq). rewrite D. destruct (C48_bytes _ _ _ _ A (or_introl D)) as (Se & _).
      exists i. eexists. split; [exact Se|]. split; [reflexivity|]. intros q h qs Er Eh Ec. rewrite Er. cbn [h_run]. unfold h_operate. cbn [k_conn k_tunnel]. rewrite Eh. cbn [negb].
      assert (HA : h_auth (HCfg (bu_user s) (bu_pass s)) = None).
      { unfold h_auth. cbn [h_user h_pass]. destruct Hf as [Hf|Hf]; [rewrite (said_one _ _ _ _ Us Hf); reflexivity|rewrite (said_one _ _ _ _ Pa Hf); now destruct (bu_user s)]. }
      rewrite HA, Ec. cbn [relay_answer]. destruct (h_run _ _ qs) as [s2 l] eqn:E2. cbn [snd]. eexists. reflexivity.
  Qed.
End C187.

(* a line with both, one with --server, one with half of it: the hypotheses are met, and
   what a SOCKS5 client with and without the right words gets *)
Notation px_client ws segs :=
  (match asked_start (fun _ => None) ex_sa None None (fun _ => None) (fun _ => None) (fun _ => None) (fun s => Some s) (fun s => s) (fun _ => []) [] (map txt ws) with
   | Some o => match proxy_ports (fun _ => None) [] 0 (fun _ _ => true) (fun _ => true) (fun _ => true) (fun _ _ => true) o with
     | BOk b => Some (deal_client (fun _ => []) (fun _ _ => None) (fun _ => true) o b 24 segs) | _ => None end
   | None => None end).
Definition px_target : saddr := SAddr (V4 0x1020304) 80.
Definition px_ask : bytes := request_msg 1 (encode_addr px_target).
Example C187_case :
  px_client ["proxy"; "--user"; "u"; "--pass"; "p"; "-b"; "0.0.0.0:8091"]%string [greeting [2]; credentials (txt "u") (txt "p") ++ px_ask; txt "data"] =
    Some (GSocks ([EvWrite [5; 2]; EvWrite [1; 0]; EvConnect px_target; EvWrite [5; 0; 0; 1; 0; 0; 0; 0; 0; 0]; EvForward (txt "data")], Done)) /\
  px_client ["proxy"; "--user"; "u"; "--pass"; "p"; "-b"; "0.0.0.0:8091"]%string [greeting [2]; credentials (txt "u") (txt "q") ++ px_ask] =
    Some (GSocks ([EvWrite [5; 2]; EvWrite [1; 1]], Failed EVerify)) /\
  px_client ["proxy"; "--user"; "u"; "--pass"; "p"; "-b"; "0.0.0.0:8091"; "--flag=http"]%string [greeting [2]; credentials (txt "u") (txt "p") ++ px_ask] = Some GNobody /\
  px_client ["proxy"; "--user"; "u"; "-b"; "0.0.0.0:8091"]%string [greeting [0]; px_ask; txt "data"] =
    Some (GSocks ([EvWrite [5; 0]; EvConnect px_target; EvWrite [5; 0; 0; 1; 0; 0; 0; 0; 0; 0]; EvForward (txt "data")], Done)) /\
  px_client ["proxy"; "--user"; "u"; "--pass"; "p"; "-b"; "0.0.0.0:8091"; "-S"; "1.1.1.1:1"]%string [px_ask] = Some (GTunnel [px_ask]).
Proof. vm_compute. repeat split; reflexivity. Qed.
Example C187_case_asks : asks (fun _ _ => None) (encode_addr px_target) px_target.
Proof. apply encode_asks. split; vm_compute; auto. Qed.
Example C187_case_udp :
  match asked_start (fun _ => Some (V4 7)) ex_sa None None (fun _ => None) (fun _ => None) (fun _ => None) (fun s => Some s) (fun s => s) (fun _ => []) []
          (map txt ["proxy"; "--user"; "u"; "--pass"; "p"; "-b"; "0.0.0.0:8091"; "--udp-bind"; "0.0.0.7"]%string) with
  | Some o => match proxy_ports (fun _ => None) [] 0 (fun _ _ => true) (fun _ => true) (fun _ => true) (fun _ _ => true) o with
    | BOk b => deal_client (fun _ => []) (fun _ _ => None) (fun _ => true) o b 24 [greeting [2] ++ credentials (txt "u") (txt "p"); request_msg 3 (encode_addr px_target)] =
               GSocks ([EvWrite [5; 2]; EvWrite [1; 0]; EvAssociate (V4 7)], Done)
    | _ => False end
  | None => False end.
Proof. vm_compute. reflexivity. Qed.
Print Assumptions C187_needs_login_partial.
Print Assumptions C187_admitted.
Print Assumptions C187_udp.
Print Assumptions C187_server_refuted.
Print Assumptions C187_half_refuted.
