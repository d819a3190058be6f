(* C186: what a ws-proxy command line makes of the connections of its clients. *)
From Coq Require Import String.
From Verif Require Import Base Text TextOps AddrModel ConfModel HealthModel HealthSpec RouteModel InhModel ArgModel ArgSpec ArgProps OpModel OpSpec OpProofs OpProps BindProofs PlModel PlSpec PlProps TgtModel TgtSpec TgtProofs TgtProps FsModel FsProofs RpModel RpProps WpModel.
Open Scope N_scope.

Section C186.
  Context (parse_ip : text -> option ipaddr) (parse_sa : text -> option saddr) (local4 local6 : option ipaddr).
  Notation reads := (reads parse_ip parse_sa local4 local6).
  Context (read_file : text -> option text) (yaml toml : text -> option (@copt (list (text * list val)))) (show_sa : saddr -> text).
  Notation asked_start := (asked_start parse_ip parse_sa local4 local6 read_file yaml toml load_web load_streams show_sa).
  Context (connect_url : url -> option text) (resolve : text -> option (list saddr)) (name_of : saddr -> addr) (sa : addr -> saddr).
  Notation linked := (linked connect_url resolve name_of sa).

  (* what is meant by the mode: a conversion if it is written in lower case *)
  Definition does (mode : text) (k : conversion) : Prop :=
    In (mode, k) modes \/ (forall k', ~ In (mode, k') modes) /\ k = Plain.

  (* C186: at every port of --from a connection goes to the address of --to, with the name
     of --domain, converted as --mode says; elsewhere nothing is done.  Missing: moments
     with a result for the address that is between thirty and sixty seconds old.  A mode
     that is not in lower case is accepted too, and does nothing (C120). *)
  Theorem C186_linked_partial : forall argv ws o, asked_start argv (txt "ws-proxy" :: ws) = Some o -> (forall x, sa (name_of x) = x) ->
    exists s os l to mode dom, o_stream o = Some s /\ spelled ws (flat_map written os) /\
    means reads (Or TAddrs usual) (given "from" os) [VAddrs l] /\ means reads (One TAddr) (given "to" os) [VAddr to] /\
    means reads (One TStr) (given "mode" os) [VStr mode] /\ means reads (May TStr) (given "domain" os) (may VStr dom) /\
    (exists name k, In (name, k) modes /\ spelled_as name mode) /\
    (forall port m, ~ (exists a, In a l /\ sa_port a = port) -> linked s port m = Ok None) /\
    (forall port m, (exists a, In a l /\ sa_port a = port) -> decided name_of to m -> exists k, does mode k /\ linked s port m = Ok (Some (Link to dom k))).
  Proof.
    intros argv ws o H SA. destruct (start_line _ _ _ _ _ _ _ _ _ _ _ _ _ _ H) as (c & sh & L & Pe). destruct (C171_settings_partial _ _ _ _ _ _ _ _ L) as (W & cn & os & _ & Sp & _ & _ & B).
    assert (E : exists a, c = CWs a) by (destruct c; try (exfalso; revert W; vm_compute; discriminate); eauto). destruct E as (a & ->).
    unfold parse_env in Pe. destruct (sh_daemon sh && sh_forever sh); [discriminate|]. destruct (sh_daemon sh); [discriminate|]. destruct (sh_forever sh); [discriminate|].
    destruct (ws_section a) as [s|] eqn:Es; [|discriminate]. destruct (C120_single _ _ Es) as (sv & u & Esv & Eb & _ & _ & _ & Ed & Em & _ & _ & Eu & Un & Um).
    unfold start, after in Pe. cbn [with_stream from_shared o_http] in Pe. injection Pe as <-.
    destruct B as (B1 & B2 & _ & B4 & B5 & _). exists (load_streams s), os, (wa_from a), (wa_to a), (wa_mode a), (wa_domain a).
    split; [reflexivity|]. split; [exact Sp|]. split; [exact B1|]. split; [exact B2|]. split; [exact B4|]. split; [exact B5|].
    split; [apply C120_accepted; eauto|].
    assert (F : forall port, find (fun v => list_contains (as_bind v) port) (ac_servers (load_streams s)) =
              if list_contains (wa_from a) port then Some (server_filled sv (let i := iserver_of sv in IServer (v_comm i) (v_up i) (v_upstream i) (v_headers i) (v_root i) (map (fill_location (fun x => x) i) (v_locs i)))) else None).
    { intros port. unfold load_streams. cbn [ac_servers]. rewrite Esv. cbn [map find server_filled as_bind]. rewrite Eb. reflexivity. }
    split.
    - intros port m NP. unfold WpModel.linked. rewrite F. destruct (list_contains (wa_from a) port) eqn:C; [|reflexivity]. apply BindProofs.contains_ok in C. destruct (NP C).
    - intros port m P (ops & EH & G). exists (converts (wa_mode a)). split.
      + destruct (C120_case_refuted a s sv Es) as (X & Y); [rewrite Esv; now left|]. rewrite Em in X, Y. unfold does.
        destruct (existsb (fun p => leqb (fst p) (wa_mode a)) modes) eqn:Q.
        * apply existsb_exists in Q as ([n k] & I & Q). apply leqb_ok in Q. cbn [fst] in Q. left. rewrite (X n k I (eq_sym Q)), <- Q. exact I.
        * right. assert (Z : forall k', ~ In (wa_mode a, k') modes).
          { intros k' I. apply not_true_iff_false in Q. apply Q. apply existsb_exists. exists (wa_mode a, k'). split; [exact I|apply leqb_refl]. }
          split; [exact Z|]. apply Y. intros n k I <-. exact (Z _ I).
      + unfold WpModel.linked. rewrite F. apply BindProofs.contains_ok in P. rewrite P. cbn [server_filled as_domain as_up as_mode v_up iserver_of].
        assert (ME : meant (stream_upstreams [] (ups_now name_of sa (load_streams s) m)) (as_up sv) (Ok (Some (wa_to a)))).
        { unfold stream_upstreams, ups_now, load_streams. cbn [ac_ups app]. rewrite Eu. cbn [map]. rewrite Un, Um. unfold now_of. cbn [map fst snd]. rewrite EH.
          rewrite (simple_choice _ _ _ _ (simple_agrees ops _ (m_now m) G)). cbn [option_map]. rewrite SA.
          exists [], (as_up sv), []. split; [reflexivity|]. destruct (as_up sv) as [|x y] eqn:Eq; [left; auto|right]. split; [discriminate|]. split; [reflexivity|]. intros []. }
        rewrite (C126_up_name _ _ _ _ _ _ ME). cbn [rbind fst snd]. rewrite Ed, Em. reflexivity.
  Qed.
End C186.

Notation wp_start ws :=
  (asked_start (fun _ => None) ex_sa None None (fun _ => None) (fun _ => None) (fun _ => None) load_web load_streams (fun _ => []) [] (map txt ws)).
Notation wp_linked := (linked (fun _ => None) (fun _ => None) (fun a => show (sa_port a))
  (fun t => SAddr (V4 0x1020304) (match parse_uint 65535 t with Some p => p | None => 0 end))).
Example C186_case :
  match wp_start ["ws-proxy"; "-f"; "0.0.0.0:8091"; "-t"; "1.2.3.4:80"; "--mode"; "tcp2ws"; "--domain=d"]%string with
  | Some o => match o_stream o with
    | Some s => wp_linked s 8091 (at_moment (Err tt) false None) = Ok (Some (Link (SAddr (V4 0x1020304) 80) (Some (txt "d")) TcpToWs)) /\
                wp_linked s 80 (at_moment (Err tt) false None) = Ok None
    | None => False end
  | None => False end.
Proof. vm_compute. split; reflexivity. Qed.
Print Assumptions C186_linked_partial.
