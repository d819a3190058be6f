(* C178: the ports a command line names are the ports that are opened. *)
From Coq Require Import String.
From Verif Require Import Base Text TextOps AddrModel ConfModel RouteModel ProtModel CoreModel CoreProps BindModel BindSpec BindProofs BindProps ArgModel ArgProps OpModel OpSpec OpProofs OpProps BuModel PlModel PlSpec.
Open Scope N_scope.

Section C178.
  Context (parse_ip : text -> option ipaddr) (parse_sa : text -> option saddr) (local4 local6 : option ipaddr).
  Notation reads := (reads parse_ip parse_sa local4 local6).
  Context (read_file : text -> option text) (yaml toml : text -> option (@copt (list (text * list val))))
          (load_http : asection -> option asection) (load_stream : asection -> asection) (show_sa : saddr -> text).
  Notation asked_start := (asked_start parse_ip parse_sa local4 local6 read_file yaml toml load_http load_stream show_sa).
  Context (read : text -> option (list pem)) (own_certs : list N) (own_key : N)
          (pair_ok : list N -> N -> bool) (root_ok : N -> bool) (can_bind : saddr -> bool) (reach : text -> bool -> bool)
          (cert_ok : text -> text -> bool) (can_open : bool -> saddr -> bool).
  Notation proxy_ports := (proxy_ports read own_certs own_key pair_ok root_ok can_bind reach).
  Notation web_ports := (web_ports can_bind cert_ok).
  Notation stream_ports := (stream_ports can_open).
  Notation usable := (usable read own_certs own_key pair_ok).
  Notation certs_in := (certs_in read own_certs).
  Notation key_in := (key_in read own_key).

  Lemma typed t w v : reads t w v ->
    match t, v with
    | TStr, VStr s => s = w | TNum, VNum _ | TAddr, VAddr _ | TAddrs, VAddrs _ | TFlag, VFlag _ | TIp, VIp _ | TSock, VSock _ | THeader, VHeader _ | TDur, VDur _ | TLevel, VLevel _ => True
    | _, _ => False end.
  Proof.
    unfold OpProofs.reads, of_text. destruct t; try discriminate; try (intros [= <-]; reflexivity);
      match goal with |- (do x <- ?r ; _) = _ -> _ => destruct r; cbn [rbind]; try discriminate; intros [= <-]; exact I end.
  Qed.
  Lemma may_addr g vs : means reads (May TAddr) g vs -> forall a, o_addr vs = Some a <-> exists w, g = [Some w] /\ reads TAddr w (VAddr a).
  Proof.
    intros [(-> & ->)|(w & v & -> & R & ->)] a; [split; [discriminate|intros (w & E & _); discriminate]|].
    assert (T := typed _ _ _ R). destruct v; try contradiction. cbn [o_addr]. split.
    - intros [= <-]. exists w. auto.
    - intros (w' & [= <-] & R'). unfold OpProofs.reads in *. congruence.
  Qed.
  Lemma may_sock g vs : means reads (May TSock) g vs -> forall a, o_sock vs = Some a <-> exists w, g = [Some w] /\ reads TSock w (VSock a).
  Proof.
    intros [(-> & ->)|(w & v & -> & R & ->)] a; [split; [discriminate|intros (w & E & _); discriminate]|].
    assert (T := typed _ _ _ R). destruct v; try contradiction. cbn [o_sock]. split.
    - intros [= <-]. exists w. auto.
    - intros (w' & [= <-] & R'). unfold OpProofs.reads in *. congruence.
  Qed.
  Lemma may_str g vs : means reads (May TStr) g vs -> g = match o_str vs with Some w => [Some w] | None => [] end.
  Proof. intros [(-> & ->)|(w & v & -> & R & ->)]; [reflexivity|]. assert (T := typed _ _ _ R). destruct v; try contradiction. cbn in *. now subst. Qed.
  Lemma switch_on g vs : means reads Switch g vs -> (g_bool vs = true <-> g <> []).
  Proof. intros [(-> & ->)|(-> & ->)]; cbn; split; intros H; try discriminate; try reflexivity; contradiction. Qed.
  Lemma or_num n g vs : means reads (Or TNum (VNum n)) g vs -> means reads (Or TNum (VNum n)) g [VNum (g_num vs)].
  Proof. intros [(-> & ->)|(w & v & -> & R & ->)]; [left; auto|]. assert (T := typed _ _ _ R). destruct v; try contradiction. right. eauto. Qed.
  Lemma or_flag n g vs : means reads (Or TFlag (VFlag n)) g vs -> means reads (Or TFlag (VFlag n)) g [VFlag (g_flag vs)].
  Proof. intros [(-> & ->)|(w & v & -> & R & ->)]; [left; auto|]. assert (T := typed _ _ _ R). destruct v; try contradiction. right. eauto. Qed.
  Lemma may_ip g vs : means reads (May TIp) g vs -> means reads (May TIp) g (may VIp (o_ip vs)).
  Proof. intros [(-> & ->)|(w & v & -> & R & ->)]; [left; auto|]. assert (T := typed _ _ _ R). destruct v; try contradiction. right. eauto. Qed.

  Lemma start_line argv w ws o : asked_start argv (w :: ws) = Some o ->
    exists c sh, command_line parse_ip parse_sa local4 local6 (w :: ws) = Some (Ok (c, sh)) /\
      parse_env read_file yaml toml load_http load_stream show_sa argv c sh = PStart o.
  Proof.
    unfold PlModel.asked_start. destruct (command_line parse_ip parse_sa local4 local6 (w :: ws)) as [[[c sh]| |]|]; try discriminate.
    destruct (parse_env _ _ _ _ _ _ argv c sh) eqn:E; try discriminate. intros [= <-]. eauto.
  Qed.

  (* C178, full statement: a command line that is accepted opens the ports its options
     name, with TLS where its options say so, and no others; without options the ones that
     are documented. *)
  Theorem C178_section : forall argv ws o, asked_start argv (txt "proxy" :: ws) = Some o ->
    exists os x, spelled ws (flat_map written os) /\ o_proxy o = Some x /\ section_by reads os (section_of x) /\ o_http o = None /\ o_stream o = None.
  Proof.
    intros argv ws o H. destruct (start_line _ _ _ _ H) as (c & sh & L & P). destruct (C171_settings_partial _ _ _ _ _ _ _ _ L) as (W & cn & os & _ & S & _ & _ & B).
    assert (E : exists x, c = CProxy x) by (destruct c; try (exfalso; revert W; vm_compute; discriminate); eauto). destruct E as (x & ->).
    unfold parse_env in P. destruct (sh_daemon sh && sh_forever sh); [discriminate|]. destruct (sh_daemon sh); [discriminate|]. destruct (sh_forever sh); [discriminate|].
    unfold start, after in P. cbn [with_proxy from_shared o_http] in P. injection P as <-. exists os, x. split; [exact S|]. split; [reflexivity|]. split; [|split; reflexivity].
    cbn [command_by] in B. unfold proxy_by, proxy_settings in B.
    repeat match goal with H : Forall _ (_ :: _) |- _ => inversion H; clear H; subst end. cbn [fst snd] in *.
    unfold section_by, section_of, names, said. cbn [bu_sid bu_bind bu_center bu_flag bu_server bu_user bu_pass bu_udp bu_http bu_https bu_tcp bu_proxy bu_map_cert bu_map_key bu_ts bu_tc bu_two_way bu_domain bu_cert bu_key bu_maps].
    repeat match goal with |- _ /\ _ => split end;
      try (apply may_addr; assumption); try (apply may_sock; assumption); try (apply may_str; assumption); try (apply switch_on; assumption);
      try (apply or_num; assumption); try (apply or_flag; assumption); try (apply may_ip; assumption); reflexivity.
  Qed.

  Notation listens_at := (fun (b : binding) k a => In (k, a) (b_listen b)).
  (* the proxy command: every port its options name is listened at, and no other; the https
     port for visitors when its certificate and key can be used; TLS for the tunnel port when
     --tc is there and the certificate and key can be used; a tunnel to the server of --server
     when there is --bind as well *)
  Theorem C178_proxy_partial : forall argv ws o b, asked_start argv (txt "proxy" :: ws) = Some o -> proxy_ports o = BOk b ->
    exists os, spelled ws (flat_map written os) /\ web_ports o = Ok [] /\ stream_ports o = Ok [] /\
    (forall k n t, In (k, n, t) port_options -> k <> LHttps -> forall a, listens_at b k a <-> names reads n t os a) /\
    (forall a, listens_at b LHttps a <-> names reads "map-https-bind" TSock os a /\ exists c k, said "map-cert" os c /\ said "map-key" os k /\ usable c k) /\
    (forall k a, listens_at b k a -> exists n t, In (k, n, t) port_options) /\
    (b_accept b = true <-> given "tc" os <> [] /\ exists c k certs key, said "cert" os c /\ said "key" os k /\ certs_in c certs /\ key_in k key /\ pair_ok certs key = true /\
       (given "two-way-tls" os <> [] -> certs <> [])) /\
    (b_tunnel b = true <-> (exists sv, said "server" os (Some sv)) /\ exists a, names reads "bind" TAddr os a).
  Proof.
    intros argv ws o b H P. destruct (C178_section _ _ _ H) as (os & x & S & Ex & B & W & St). exists os. split; [exact S|].
    unfold PlModel.web_ports, PlModel.stream_ports. rewrite W, St. split; [reflexivity|]. split; [reflexivity|].
    unfold PlModel.proxy_ports in P. rewrite Ex in P.
    assert (Q := C111_ports _ _ _ _ _ _ _ _ _ P). assert (A := C110_on _ _ _ _ _ _ _ _ _ P).
    destruct B as (_ & B1 & B2 & _ & Sv & _ & _ & _ & B3 & B4 & B5 & B6 & Mc & Mk & _ & Tc & Tw & _ & Ce & Ke & _).
    assert (SU : forall n v w, said n os v -> said n os w -> v = w) by (unfold said; intros n [v|] [w|] E1 E2; congruence).
    split; [|split; [|split; [|split]]].
    - intros k n t I N a. rewrite Q. unfold port_options in I. cbn [In] in I.
      destruct I as [I|[I|[I|[I|[I|[I|[]]]]]]]; injection I as <- <- <-; cbn [configured to_pconf p_bind p_center p_http p_https p_tcp p_proxy];
        try (rewrite B1); try (rewrite B2); try (rewrite B3); try (rewrite B5); try (rewrite B6); try (split; [intros (X & _); exact X|intros X; split; [exact X|discriminate]]).
      now destruct N.
    - intros a. rewrite Q. cbn [configured to_pconf p_https p_map_cert p_map_key]. rewrite B4. split; intros (X & Y); (split; [exact X|]).
      + exists (bu_map_cert (section_of x)), (bu_map_key (section_of x)). auto.
      + intros _. destruct Y as (c & k & Y1 & Y2 & Y3). rewrite (SU _ _ _ Mc Y1), (SU _ _ _ Mk Y2). exact Y3.
    - intros k a I. apply Q in I as (I & _). destruct k; cbn [configured] in I; try discriminate I; (do 2 eexists; unfold port_options; cbn [In]; tauto).
    - rewrite A. cbn [to_pconf p_tc p_cert p_key p_two_way]. rewrite Tc. split; intros (X & Y); (split; [exact X|]).
      + destruct Y as (certs & k & Y1 & Y2 & Y3 & Y4). exists (bu_cert (section_of x)), (bu_key (section_of x)), certs, k. rewrite Tw in Y4. tauto.
      + destruct Y as (c & k & certs & key & Y1 & Y2 & Y3 & Y4 & Y5 & Y6). exists certs, key. rewrite (SU _ _ _ Ce Y1), (SU _ _ _ Ke Y2), Tw. auto.
    - assert (T : b_tunnel b = match bu_bind (section_of x), bu_server (section_of x) with Some _, Some _ => true | _, _ => false end).
      { clear - P. unfold proxy_start in P. cbn [to_pconf p_bind p_server] in P. destruct (get_tls_accept _ _ _ _ _ _); try discriminate P;
          destruct (bu_bind (section_of x)), (bu_server (section_of x)); try (match type of P with context [reach ?a ?c] => destruct (reach a c) end; try discriminate P);
          (match type of P with context [listens ?a ?c] => destruct (listens a c) end; try discriminate P); injection P as <-; reflexivity. }
      rewrite T. split.
      + destruct (bu_bind (section_of x)) as [a|] eqn:Eb; [|discriminate]. destruct (bu_server (section_of x)) as [sv|]; [|discriminate]. intros _.
        split; [exists sv; exact Sv|exists a; now apply B1].
      + intros ((sv & X) & (a & Y)). apply B1 in Y. rewrite Y, (SU _ _ _ Sv X). reflexivity.
  Qed.
  (* False of the code: without options nothing is listened at; 127.0.0.1:8090 is documented. *)
  Theorem C178_default_refuted : forall argv, exists o b, asked_start argv [txt "proxy"] = Some o /\ proxy_ports o = BOk b /\ b_listen b = [].
  Proof. intros argv. do 2 eexists. split; [vm_compute; reflexivity|]. split; [vm_compute; reflexivity|reflexivity]. Qed.
  (* False of the code: --bind with --tc opens no port for tunnels, over TLS or not, as the
     documented line for the remote one of two proxies says (C178_case_remote is that line):
     without --center-addr there is none. *)
  Theorem C178_remote_refuted : forall argv ws o b, asked_start argv (txt "proxy" :: ws) = Some o -> proxy_ports o = BOk b ->
    exists os, spelled ws (flat_map written os) /\
    (given "center-addr" os = [] -> (forall a, ~ listens_at b LCenter a) /\ forall a, names reads "bind" TAddr os a -> listens_at b LClient a).
  Proof.
    intros argv ws o b H P. destruct (C178_proxy_partial _ _ _ _ H P) as (os & S & _ & _ & Q & _). exists os. split; [exact S|]. intros G. split.
    - intros a I. apply (Q LCenter "center-addr"%string TAddr) in I; [|cbn; auto|discriminate]. destruct I as (w & E & _). rewrite G in E. discriminate E.
    - intros a N. apply (Q LClient "bind"%string TAddr); [cbn; auto|discriminate|exact N].
  Qed.
  (* False of the code: there is no command called config, as documented. *)
  Theorem C178_config_refuted : forall ws, command_line parse_ip parse_sa local4 local6 (txt "config" :: ws) = Some (Err tt).
  Proof. intros ws. vm_compute. reflexivity. Qed.

  Lemma one_server s s' sv : addresses s' = addresses s -> ac_servers s = [sv] ->
    exists v, ac_servers s' = [v] /\ as_bind v = as_bind sv /\ as_ssl v = as_ssl sv /\ as_cert v = as_cert sv /\ as_key v = as_key sv /\ as_up v = as_up sv /\ as_mode v = as_mode sv.
  Proof.
    unfold addresses. intros H E. rewrite E in H. cbn [map] in H. destruct (ac_servers s') as [|v [|? ?]]; cbn [map] in H; try discriminate H.
    injection H as H1 H2 H3 H4 H5 H6. exists v. auto 8.
  Qed.
  Lemma one_listed v a t : first_by fst (listed [web_of cert_ok v]) (a, t) <->
    if t then In a (as_ssl v) /\ ~ In a (as_bind v) else In a (as_bind v).
  Proof.
    unfold listed. cbn [flat_map web_of b_srv s_bind s_bind_ssl]. rewrite app_nil_r. split.
    - intros (l & r & E & N). assert (I : In (a, t) (l ++ (a, t) :: r)) by (apply in_or_app; right; now left). rewrite <- E in I.
      apply in_app_or in I. destruct t.
      + destruct I as [I|I]; apply in_map_iff in I as (x & [= ->] & I). split; [exact I|]. intros J.
        apply N. change (fst (a, true)) with a.
        assert (K : exists l', l = map (fun a0 : saddr => (a0, false)) (as_bind v) ++ l').
        { clear - E. revert E. generalize (map (fun a0 : saddr => (a0, true)) (as_ssl v)). revert l. induction (as_bind v) as [|b bs IH]; intros l m E; [now exists l|].
          cbn [map app] in E. destruct l as [|x l]; cbn [app] in E; [discriminate E|]. injection E as <- E. destruct (IH _ _ E) as (l' & ->). now exists l'. }
        destruct K as (l' & ->). rewrite map_app, map_map. apply in_or_app. left. cbn [fst]. now rewrite map_id.
      + destruct I as [I|I]; apply in_map_iff in I as (x & [= ->] & I). exact I.
    - assert (F : forall (b : bool) l, In a l -> exists p q, map (fun a0 : saddr => (a0, b)) l = p ++ (a, b) :: q /\ ~ In a (map fst p)).
      { intros b. induction l as [|x l IH]; [intros []|]. intros I. destruct (sa_eqb a x) eqn:E.
        - apply sa_eqb_ok in E as <-. exists [], (map (fun a0 : saddr => (a0, b)) l). split; [reflexivity|intros []].
        - assert (NE : x <> a) by (intros <-; assert (X := proj2 (sa_eqb_ok x x) eq_refl); congruence).
          destruct I as [I|I]; [contradiction|]. destruct (IH I) as (p & q & E' & N). exists ((x, b) :: p), q. cbn [map app fst In]. rewrite E'. split; [reflexivity|tauto]. }
      destruct t.
      + intros (I & N). destruct (F true _ I) as (p & q & E & N'). exists (map (fun a0 : saddr => (a0, false)) (as_bind v) ++ p), q. rewrite E, app_assoc. split; [reflexivity|].
        cbn [fst]. rewrite map_app, map_map. intros J. apply in_app_or in J as [J|J]; [|contradiction]. cbn [fst] in J. now rewrite map_id in J.
      + intros I. destruct (F false _ I) as (p & q & E & N'). exists p, (q ++ map (fun a0 : saddr => (a0, true)) (as_ssl v)). rewrite E, <- app_assoc. auto.
  Qed.

  (* file-server: every address of --listen without TLS, every other address of --listen-ssl
     with TLS and with the certificate and key given, and no other; reverse-proxy: every
     address of --from, without TLS *)
  Theorem C178_file_partial : forall argv ws o ls, keeps_addresses load_http load_stream ->
    asked_start argv (txt "file-server" :: ws) = Some o -> web_ports o = Ok ls ->
    exists os l r, spelled ws (flat_map written os) /\ means reads (Or TAddrs usual) (given "listen" os) [VAddrs l] /\ means reads (May TAddrs) (given "listen-ssl" os) (may VAddrs r) /\
    NoDup (map fst ls) /\ (forall a, In (a, false) ls <-> In a l) /\ (forall a, In (a, true) ls <-> In a (match r with Some m => m | None => [] end) /\ ~ In a l) /\
    (r <> None -> exists c k, given "cert" os = [Some c] /\ given "key" os = [Some k] /\ cert_ok c k = true) /\
    (exists b, proxy_ports o = BOk b /\ b_listen b = [] /\ b_accept b = false /\ b_tunnel b = false) /\ stream_ports o = Ok [].
  Proof.
    intros argv ws o ls (KH & _) H P. destruct (start_line _ _ _ _ H) as (c & sh & L & Pe). destruct (C171_settings_partial _ _ _ _ _ _ _ _ L) as (W & cn & os & _ & Sp & _ & _ & B).
    assert (E : exists a, c = CFile a) by (destruct c; try (exfalso; revert W; vm_compute; discriminate); eauto). destruct E as (a & ->).
    unfold parse_env in Pe. destruct (sh_daemon sh && sh_forever sh); [discriminate|]. destruct (sh_daemon sh); [discriminate|]. destruct (sh_forever sh); [discriminate|].
    destruct (file_section a) as [s|] eqn:Es; [|discriminate]. destruct (C119_options_partial _ _ Es) as (sv & f & Esv & _ & _ & Eb & El & Ec & _ & _ & _ & _ & _ & Eu & _).
    unfold start, after in Pe. cbn [with_http from_shared o_http] in Pe. destruct (load_http s) as [s'|] eqn:Eh; [|discriminate]. injection Pe as <-.
    destruct (one_server _ _ _ (KH _ _ Eh) Esv) as (v & Ev & V1 & V2 & V3 & V4 & _).
    unfold PlModel.web_ports in P. cbn [o_http with_http] in P. rewrite Ev in P. cbn [map] in P.
    exists os, (fa_listen a), (fa_ssl a). destruct B as (_ & B1 & B2 & B3 & B4 & _). split; [exact Sp|]. split; [exact B1|]. split; [exact B2|].
    destruct (C98_listening _ _ _ P) as (ND & _). split; [exact ND|].
    split; [|split; [|split; [|split; [eexists; split; [reflexivity|auto]|reflexivity]]]].
    - intros x. rewrite (C99_tls _ _ _ x false P), one_listed, V1, Eb. tauto.
    - intros x. rewrite (C99_tls _ _ _ x true P), one_listed, V1, V2, Eb, El. tauto.
    - intros N. destruct (Ec N) as (C1 & K1 & C2 & K2 & _). destruct (fa_cert a) as [cf|] eqn:Ecf; [|contradiction]. destruct (fa_key a) as [kf|] eqn:Ekf; [|contradiction].
      exists cf, kf. apply may_str in B3. apply may_str in B4. cbn [may o_str] in B3, B4. split; [exact B3|]. split; [exact B4|].
      unfold http_bind in P. cbn [bind_servers web_of b_cert] in P. rewrite V3, V4, C2, K2 in P. destruct (cert_ok cf kf); [reflexivity|discriminate P].
  Qed.
  Theorem C178_reverse : forall argv ws o ls, keeps_addresses load_http load_stream ->
    asked_start argv (txt "reverse-proxy" :: ws) = Some o -> web_ports o = Ok ls ->
    exists os l, spelled ws (flat_map written os) /\ means reads (Or TAddrs usual) (given "from" os) [VAddrs l] /\
    NoDup (map fst ls) /\ (forall a t, In (a, t) ls <-> t = false /\ In a l) /\
    (exists b, proxy_ports o = BOk b /\ b_listen b = [] /\ b_accept b = false /\ b_tunnel b = false) /\ stream_ports o = Ok [].
  Proof.
    intros argv ws o ls (KH & _) H P. destruct (start_line _ _ _ _ H) as (c & sh & L & Pe). destruct (C171_settings_partial _ _ _ _ _ _ _ _ L) as (W & cn & os & _ & Sp & _ & _ & B).
    assert (E : exists a, c = CReverse a) by (destruct c; try (exfalso; revert W; vm_compute; discriminate); eauto). destruct E as (a & ->).
    unfold parse_env in Pe. destruct (sh_daemon sh && sh_forever sh); [discriminate|]. destruct (sh_daemon sh); [discriminate|]. destruct (sh_forever sh); [discriminate|].
    destruct (C123_single a) as (sv & f & Esv & _ & Eb & El & _).
    unfold start, after in Pe. cbn [with_http from_shared o_http] in Pe. destruct (load_http (reverse_section a)) as [s'|] eqn:Eh; [|discriminate]. injection Pe as <-.
    destruct (one_server _ _ _ (KH _ _ Eh) Esv) as (v & Ev & V1 & V2 & V3 & V4 & _).
    unfold PlModel.web_ports in P. cbn [o_http with_http] in P. rewrite Ev in P. cbn [map] in P.
    exists os, (ra_from a). destruct B as (B1 & _). split; [exact Sp|]. split; [exact B1|].
    destruct (C98_listening _ _ _ P) as (ND & _). split; [exact ND|]. split; [|split; [eexists; split; [reflexivity|auto]|reflexivity]].
    intros x t. rewrite (C99_tls _ _ _ x t P), one_listed, V1, V2, Eb, El. destruct t; cbn [In]; split.
    - intros ([] & _).
    - intros (X & _). discriminate X.
    - auto.
    - tauto.
  Qed.
  (* ws-proxy: of the addresses of --from with one port, the first; all over TCP *)
  Theorem C178_ws_partial : forall argv ws o ls, keeps_addresses load_http load_stream ->
    asked_start argv (txt "ws-proxy" :: ws) = Some o -> stream_ports o = Ok ls ->
    exists os l, spelled ws (flat_map written os) /\ means reads (Or TAddrs usual) (given "from" os) [VAddrs l] /\
    (forall a u i, In (a, u, i) ls <-> u = false /\ i = O /\ first_by sa_port l a) /\
    (exists b, proxy_ports o = BOk b /\ b_listen b = [] /\ b_accept b = false /\ b_tunnel b = false) /\ web_ports o = Ok [].
  Proof.
    intros argv ws o ls (_ & KS) H P. destruct (start_line _ _ _ _ H) as (c & sh & L & Pe). destruct (C171_settings_partial _ _ _ _ _ _ _ _ L) as (W & cn & os & _ & Sp & _ & _ & B).
    assert (E : exists a, c = CWs a) by (destruct c; try (exfalso; revert W; vm_compute; discriminate); eauto). destruct E as (a & ->).
    unfold parse_env in Pe. destruct (sh_daemon sh && sh_forever sh); [discriminate|]. destruct (sh_daemon sh); [discriminate|]. destruct (sh_forever sh); [discriminate|].
    destruct (ws_section a) as [s|] eqn:Es; [|discriminate]. destruct (C120_single _ _ Es) as (sv & u & Esv & Eb & _ & _ & _ & _ & Em & _).
    unfold start, after in Pe. cbn [with_stream from_shared o_http] in Pe. injection Pe as <-.
    destruct (one_server _ _ _ (KS s) Esv) as (v & Ev & V1 & _ & _ & _ & _ & V5).
    unfold PlModel.stream_ports in P. cbn [o_stream with_stream option_map] in P. rewrite Ev in P. cbn [map] in P.
    exists os, (wa_from a). destruct B as (B1 & _). split; [exact Sp|]. split; [exact B1|]. split; [|split; [eexists; split; [reflexivity|auto]|reflexivity]].
    assert (U : leqb (as_mode v) (txt "udp") = false).
    { rewrite V5, Em. unfold ws_section in Es. destruct (mode_ok (wa_mode a)) eqn:M; [|discriminate].
      destruct (leqb (wa_mode a) (txt "udp")) eqn:X; [|reflexivity]. apply leqb_ok in X. rewrite X in M. vm_compute in M. discriminate M. }
    intros x t i. rewrite (C102_listening _ _ _ (x, t, i) P). cbn [slisted ss_mode]. rewrite U, app_nil_r. cbn [ss_bind]. rewrite V1, Eb. generalize (wa_from a). intros l. split.
    - intros (p & q & Eq & N). assert (I : In (x, t, i) (map (fun a0 : saddr => (a0, false, O)) l)) by (rewrite Eq; apply in_or_app; right; now left).
      apply in_map_iff in I as (y & [= -> <- <-] & _). split; [reflexivity|]. split; [reflexivity|].
      apply map_eq_app in Eq as (p' & q' & -> & <- & Eq). destruct q' as [|z q']; [discriminate Eq|]. cbn [map] in Eq. injection Eq as -> _.
      exists p', q'. split; [reflexivity|]. rewrite map_map in N. exact N.
    - intros (-> & -> & (p & q & -> & N)). exists (map (fun a0 : saddr => (a0, false, O)) p), (map (fun a0 : saddr => (a0, false, O)) q). rewrite map_app. split; [reflexivity|].
      rewrite map_map. exact N.
  Qed.
  (* False of the code: two addresses of --from of ws-proxy with one port are not both
     listened at; an address of --listen-ssl of file-server that --listen has too is not
     served over TLS. *)
  Theorem C178_addresses_refuted : keeps_addresses load_http load_stream -> forall argv,
    (forall ws o ls a b, asked_start argv (txt "ws-proxy" :: ws) = Some o -> stream_ports o = Ok ls -> a <> b -> sa_port a = sa_port b ->
       ~ (In (a, false, O) ls /\ In (b, false, O) ls)) /\
    (forall ws o ls, asked_start argv (txt "file-server" :: ws) = Some o -> web_ports o = Ok ls ->
       exists os l r, spelled ws (flat_map written os) /\ means reads (Or TAddrs usual) (given "listen" os) [VAddrs l] /\ means reads (May TAddrs) (given "listen-ssl" os) (may VAddrs r) /\
       forall a, In a l -> In a (match r with Some m => m | None => [] end) -> ~ In (a, true) ls).
  Proof.
    intros K argv. split.
    - intros ws o ls a b H P N E (I & J). destruct (C178_ws_partial _ _ _ _ K H P) as (os & l & _ & _ & F & _).
      apply F in I as (_ & _ & (p & q & -> & I)). apply F in J as (_ & _ & (p' & q' & Eq & J)).
      clear - N E I J Eq. revert p' Eq I J. induction p as [|z p IH]; intros [|z' p'] Eq I J; cbn [app] in Eq.
      + injection Eq as Eq _. contradiction.
      + injection Eq as <- _. apply J. cbn [map In]. now left.
      + injection Eq as -> _. apply I. cbn [map In]. now left.
      + injection Eq as <- Eq. apply (IH p' Eq); intros X; [apply I|apply J]; cbn [map In]; now right.
    - intros ws o ls H P. destruct (C178_file_partial _ _ _ _ K H P) as (os & l & r & S & M1 & M2 & _ & F & G & _). exists os, l, r.
      split; [exact S|]. split; [exact M1|]. split; [exact M2|]. intros a I _ J. apply G in J as (_ & J). contradiction.
  Qed.
End C178.

(* lines that are accepted, and their ports *)
Definition ex_sa (w : text) : option saddr :=
  if leqb w (txt "0.0.0.0:8091") then Some (SAddr (V4 0) 8091) else if leqb w (txt "1.2.3.4:80") then Some (SAddr (V4 0x1020304) 80)
  else if leqb w (txt "9.9.9.9:80") then Some (SAddr (V4 0x9090909) 80) else None.
Notation ex_start ws :=
  (asked_start (fun _ => None) ex_sa None None (fun _ => None) (fun _ => None) (fun _ => None) (fun s => Some s) (fun s => s) (fun _ => []) [] (map txt ws)).
Example C178_case_keeps : keeps_addresses (fun s => Some s) (fun s => s).
Proof. split; [intros s s' [= <-]; reflexivity|reflexivity]. Qed.
Example C178_case_proxy :
  match ex_start ["proxy"; "-b"; "0.0.0.0:8091"; "--tc"; "--center-addr=1.2.3.4:80"; "-S"; "1.1.1.1:1"]%string with
  | Some o => proxy_ports (fun _ => None) [] 0 (fun _ _ => true) (fun _ => true) (fun _ => true) (fun _ _ => true) o =
              BOk (Binding true false true false [(LClient, SAddr (V4 0) 8091); (LCenter, SAddr (V4 0x1020304) 80)])
  | None => False end.
Proof. vm_compute. reflexivity. Qed.
Example C178_case_remote :
  match ex_start ["proxy"; "--user"; "proxy"; "--pass"; "proxy"; "-b"; "0.0.0.0:8091"; "--tc"]%string with
  | Some o => exists b, proxy_ports (fun _ => None) [] 0 (fun _ _ => true) (fun _ => true) (fun _ => true) (fun _ _ => true) o = BOk b /\ b_listen b = [(LClient, SAddr (V4 0) 8091)]
  | None => False end.
Proof. vm_compute. eexists. split; reflexivity. Qed.
Example C178_case_file :
  match ex_start ["file-server"; "-l"; "0.0.0.0:8091"; "--listen-ssl"; "1.2.3.4:80"; "--cert"; "a"; "--key"; "b"]%string with
  | Some o => web_ports (fun _ => true) (fun _ _ => true) o = Ok [(SAddr (V4 0) 8091, false); (SAddr (V4 0x1020304) 80, true)]
  | None => False end.
Proof. vm_compute. reflexivity. Qed.
Example C178_case_reverse :
  match ex_start ["reverse-proxy"; "--to"; "0.0.0.0:8091"]%string with
  | Some o => web_ports (fun _ => true) (fun _ _ => true) o = Ok [(SAddr (V4 0x7f000001) 8869, false)]
  | None => False end.
Proof. vm_compute. reflexivity. Qed.
Example C178_case_ws :
  match ex_start ["ws-proxy"; "--to"; "0.0.0.0:8091"; "--from"; "1.2.3.4:80,9.9.9.9:80"; "--mode"; "ws2tcp"]%string with
  | Some o => stream_ports (fun _ _ => true) o = Ok [(SAddr (V4 0x1020304) 80, false, O)]
  | None => False end.
Proof. vm_compute. reflexivity. Qed.

Print Assumptions C178_section.
Print Assumptions C178_proxy_partial.
Print Assumptions C178_default_refuted.
Print Assumptions C178_remote_refuted.
Print Assumptions C178_config_refuted.
Print Assumptions C178_file_partial.
Print Assumptions C178_reverse.
Print Assumptions C178_ws_partial.
Print Assumptions C178_addresses_refuted.
