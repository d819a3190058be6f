(* C23, C24, C46: address sets and listen lists. *)
From Coq Require Import String.
From Verif Require Import Base Text TextOps AddrModel AddrSpec AddrProofs Ipv4Text.
Open Scope N_scope.

(* C23 *)
Theorem C23_cidr : forall y n a, y < 2 ^ 32 -> 1 <= n <= 32 -> ip_ok a ->
  (gate_contains (Gate (V4 y) n) a = true <-> cidr (V4 y) n a).
Proof. intros y n a Hy Hn Ha. exact (gate_v4 y n a Hn Hy Ha). Qed.
(* an entry written without a prefix length *)
Theorem C23_single : forall parse_ip s ip a, no_char 47 s = true -> parse_ip s = Some ip ->
  exists g, parse_gate parse_ip s = Ok g /\ (gate_contains g a = true <-> a = ip).
Proof.
  intros parse_ip s ip a Hs Hp. exists (Gate ip 0). unfold parse_gate. rewrite split_on_one by exact Hs. rewrite Hp.
  split; [reflexivity|]. apply gate_eq. left. reflexivity.
Qed.
Theorem C23_set : forall l a, set_contains l a = true <-> exists g, In g l /\ gate_contains g a = true.
Proof. exact set_iff. Qed.
(* a set that was printed and read again is the same set; reading never panics
   and never yields a prefix length out of range *)
Theorem C23_text : forall parse_ip show_ip l,
  Forall (fun g => (parse_ip (show_ip (g_ip g)) = Some (g_ip g) /\ no_char 47 (show_ip (g_ip g)) = true /\ word (show_ip (g_ip g)) = true) /\
                   match g_ip g with V4 _ => g_len g <= 32 | V6 _ => g_len g <= 128 end) l ->
  parse_set parse_ip (show_set show_ip l) = Ok l.
Proof. exact set_roundtrip. Qed.
Definition ip4_text (a : ipaddr) : text := match a with V4 n => show_v4 n | V6 _ => [] end.
Theorem C23_text_v4 : forall l,
  Forall (fun g => exists y, g_ip g = V4 y /\ y < 2 ^ 32 /\ g_len g <= 32) l ->
  parse_set (fun s => option_map V4 (parse_v4 s)) (show_set ip4_text l) = Ok l.
Proof.
  intros l H. apply set_roundtrip. eapply Forall_impl; [|exact H]. cbn beta. intros g (y & E & Hy & Hl).
  unfold gate_ok. rewrite E. cbn [ip4_text]. rewrite v4_roundtrip by exact Hy. split; [|exact Hl]. split; [reflexivity|].
  split; [apply show_v4_no; [reflexivity|lia]|]. destruct (show_v4_head y []) as [_ Hn]. rewrite app_nil_r in Hn.
  destruct (show_v4 y) as [|c s] eqn:Es; [contradiction|]. change (no_ws (c :: s) = true). rewrite <- Es. unfold show_v4.
  rewrite !no_ws_app, !(digits_no_ws (show _)) by apply show_digits. reflexivity.
Qed.
Theorem C23_text_total : forall parse_ip s, parse_set parse_ip s <> Panic.
Proof. exact parse_set_panic. Qed.
Example C23_demo :
  let g := Gate (V4 (192 * 16777216 + 168 * 65536)) 16 in
  gate_contains g (V4 (192 * 16777216 + 168 * 65536 + 77)) = true /\
  gate_contains g (V4 (192 * 16777216 + 169 * 65536 + 77)) = false /\
  parse_set (fun s => option_map V4 (parse_v4 s)) (txt "127.0.0.1 255.255.255.0/24") =
    Ok [Gate (V4 0x7f000001) 0; Gate (V4 0xffffff00) 24].
Proof. vm_compute. repeat split. Qed.

(* C24: false of the code: a prefix length of zero is read as no prefix length,
   and prefix lengths of IPv6 entries are ignored. *)
Theorem C24_zero_and_v6_refuted :
  (forall p, p < 2 ^ 32 -> forall t, t = show_v4 p ++ txt "/0" ->
     exists g, parse_gate (fun s => option_map V4 (parse_v4 s)) t = Ok g /\ forall a, a <> p -> cidr (V4 p) 0 (V4 a) /\ gate_contains g (V4 a) = false) /\
  (forall p n, p < 2 ^ 128 -> n < 128 -> exists a, a < 2 ^ 128 /\ cidr (V6 p) n (V6 a) /\ gate_contains (Gate (V6 p) n) (V6 a) = false).
Proof.
  split.
  - intros p Hp t ->. exists (Gate (V4 p) 0). split.
    + unfold parse_gate. change (txt "/0") with (47 :: [48]). rewrite split_on_app by (apply show_v4_no; [reflexivity|lia]).
      change (split_on 47 [48]) with [[48]]. cbv beta iota. rewrite v4_roundtrip by exact Hp. cbn [option_map]. vm_compute. reflexivity.
    + intros a N. split; [intros i Hi; lia|]. destruct (gate_contains (Gate (V4 p) 0) (V4 a)) eqn:E; [|reflexivity].
      apply gate_eq in E; [|now left]. injection E as ->. contradiction.
  - intros p n Hp Hn. exists (2 * (p / 2) + (1 - p mod 2)).
    assert (D : p = 2 * (p / 2) + p mod 2) by (apply N.div_mod; discriminate). pose proof (N.mod_lt p 2 ltac:(discriminate)) as M.
    assert (A : (2 * (p / 2) + (1 - p mod 2)) / 2 = p / 2) by (symmetry; apply (N.div_unique _ 2 _ (1 - p mod 2)); lia).
    split; [|split].
    + change (2 ^ 128) with (2 * 2 ^ 127) in *. assert (p / 2 < 2 ^ 127) by (apply N.div_lt_upper_bound; [discriminate|exact Hp]). lia.
    + intros i Hi. replace (128 - 1 - i) with (N.succ (126 - i)) by lia. rewrite <- (N.add_1_r (126 - i)).
      assert (T : forall x, N.testbit x (126 - i + 1) = N.testbit (x / 2) (126 - i)) by (intros x; change (x / 2) with (x / 2 ^ 1); rewrite <- N.shiftr_div_pow2, N.shiftr_spec by lia; reflexivity).
      rewrite !T, A. reflexivity.
    + destruct (gate_contains _ _) eqn:E; [|reflexivity]. apply gate_eq in E; [|right; eauto]. injection E as E. lia.
Qed.
(* Proved: no entry ever matches an address outside its network; those two kinds
   of entries match exactly their own address. *)
Theorem C24_sound_partial : forall ip n a, ip_ok ip -> ip_ok a ->
  (match ip with V4 _ => n <= 32 | V6 _ => n <= 128 end) -> gate_contains (Gate ip n) a = true -> cidr ip n a.
Proof. exact gate_sound. Qed.
Theorem C24_exact_partial : forall ip n a, (n = 0 \/ exists y, ip = V6 y) -> (gate_contains (Gate ip n) a = true <-> a = ip).
Proof. exact gate_eq. Qed.

(* C46: false of the code: every specification of the form ip:p-ip:q makes the
   parser panic, and so does a lone dash.  parse_sa is any reading of socket
   addresses, local4 and local6 any local addresses. *)
Theorem C46_range_refuted : forall parse_sa local4 local6 a b x y,
  clean a -> clean b -> starts_with [58] a = false -> starts_with [58] b = false ->
  parse_sa a = Some x -> parse_sa b = Some y ->
  parse_list parse_sa local4 local6 (a ++ txt "-" ++ b) = Panic.
Proof. exact range_panics. Qed.
Theorem C46_dash_refuted : forall parse_sa local4 local6, parse_list parse_sa local4 local6 (txt "-") = Panic.
Proof. reflexivity. Qed.
Example C46_range_witness :
  parse_sa4 (txt "127.0.0.1:80") = Some (SAddr (V4 0x7f000001) 80) /\
  parse_list parse_sa4 (Some (V4 5)) None (txt "127.0.0.1:80-127.0.0.1:82") = Panic.
Proof. vm_compute. split; reflexivity. Qed.
(* Proved: ip:p-:q (and :p-:q) on a machine with a local address gives exactly
   the start addresses with every port p..q; without one it panics. *)
Theorem C46_range_partial : forall parse_sa local4 local6 a start x q,
  no_char 45 a = true -> a <> [] -> local4 <> None \/ local6 <> None -> q <= u16_max ->
  parse_addr parse_sa local4 local6 a = Ok start -> hd_error start = Some x ->
  exists l, parse_list parse_sa local4 local6 (a ++ txt "-:" ++ show q) = Ok l /\
    (forall ip p, In (SAddr ip p) l <-> sa_port x <= p <= q /\ In ip (map sa_ip start)).
Proof.
  intros parse_sa local4 local6 a start x q Da Na HL Hq Hp Hx.
  eexists. split; [exact (range_colon parse_sa local4 local6 a start x q Da Na HL Hq Hp Hx)|].
  intros ip p. rewrite in_concat. split.
  - intros (l & Hl & Hin). apply in_map_iff in Hl as (p' & <- & Hp'). apply in_map_iff in Hin as (y & E & Hy).
    injection E as <- <-. split; [apply in_ports; exact Hp'|apply in_map; exact Hy].
  - intros [Hr Hip]. apply in_map_iff in Hip as (y & <- & Hy).
    exists (map (fun z => SAddr (sa_ip z) p) start). split.
    + apply in_map_iff. exists p. split; [reflexivity|apply in_ports; exact Hr].
    + apply in_map_iff. exists y. split; [reflexivity|exact Hy].
Qed.
Theorem C46_range_no_local_refuted : forall parse_sa a start q,
  no_char 45 a = true -> a <> [] -> q <= u16_max -> parse_addr parse_sa None None a = Ok start ->
  parse_list parse_sa None None (a ++ txt "-:" ++ show q) = Panic.
Proof.
  intros parse_sa a start q Da Na Hq Hp. apply (range_colon_no_local parse_sa None None a start q Da Na); try assumption.
  intros [H|H]; apply H; reflexivity.
Qed.
(* a comma list is the concatenation of its parts; without a dash nothing panics *)
Theorem C46_list : forall parse_sa local4 local6 ws addrs, ws <> [] ->
  Forall2 (fun w l => clean w /\ parse_addr parse_sa local4 local6 w = Ok l) ws addrs ->
  parse_list parse_sa local4 local6 (join (txt ",") ws) = Ok (List.concat addrs).
Proof. exact comma_list. Qed.
Lemma port_clean p : clean (58 :: show p).
Proof.
  assert (K : forall c, is_digit c = false -> 58 <> c -> no_char c (58 :: show p) = true).
  { intros c D N. unfold no_char. cbn [forallb]. apply andb_true_iff. split; [destruct (N.eqb_spec 58 c); [contradiction|reflexivity]|].
    apply forallb_forall. intros x X. pose proof (show_digits p) as Hd. rewrite forallb_forall in Hd. specialize (Hd x X).
    destruct (N.eqb_spec x c) as [->|]; [congruence|reflexivity]. }
  split; [discriminate|]. split; [|split]; apply K; try reflexivity; discriminate.
Qed.
(* a port alone means the addresses of this machine and 127.0.0.1; where one address is
   needed, the first of these *)
Theorem C46_port : forall parse_sa local4 local6 p, p <= u16_max ->
  let mine := match local4 with Some ip => [ip] | None => [] end ++ match local6 with Some ip => [ip] | None => [] end ++ [V4 (127 * 2 ^ 24 + 1)] in
  parse_list parse_sa local4 local6 (txt ":" ++ show p) = Ok (map (fun ip => SAddr ip p) mine) /\
  parse_one parse_sa local4 local6 (txt ":" ++ show p) = Ok (SAddr (hd (V4 0) mine) p).
Proof.
  intros parse_sa local4 local6 p H mine. assert (E := paddr_port parse_sa local4 local6 p H). change (txt ":" ++ show p) with (58 :: show p). split.
  - assert (K := comma_list parse_sa local4 local6 [58 :: show p] [opt_addr local4 p ++ opt_addr local6 p ++ [SAddr localhost p]]).
    cbn [join] in K. rewrite K.
    + unfold mine, opt_addr. destruct local4, local6; reflexivity.
    + discriminate.
    + constructor; [|constructor]. split; [|exact E]. apply port_clean.
  - unfold parse_one. rewrite E. unfold mine, opt_addr. destruct local4, local6; reflexivity.
Qed.
Theorem C46_one : forall parse_sa local4 local6 s a, starts_with (txt ":") s = false ->
  (parse_one parse_sa local4 local6 s = Ok a <-> parse_sa s = Some a).
Proof.
  intros parse_sa local4 local6 s a H. unfold parse_one, parse_addr. change (starts_with [58] s) with (starts_with (txt ":") s). rewrite H.
  destruct (parse_sa s) as [x|]; cbn [rbind]; split; congruence.
Qed.
Theorem C46_no_crash_partial : forall parse_sa local4 local6 s,
  (no_char 45 s = true -> parse_list parse_sa local4 local6 s <> Panic) /\ parse_one parse_sa local4 local6 s <> Panic.
Proof. intros. split; [apply list_no_dash_panic|apply one_panic]. Qed.
Theorem C46_roundtrip : forall parse_sa show_sa local4 local6 l, l <> [] ->
  (forall a, In a l -> parse_sa (show_sa a) = Some a /\ clean (show_sa a) /\ starts_with [58] (show_sa a) = false) ->
  parse_list parse_sa local4 local6 (show_list show_sa l) = Ok l.
Proof. exact list_roundtrip. Qed.
(* with the concrete text form of IPv4 addresses *)
Theorem C46_roundtrip_v4 : forall local4 local6 l, l <> [] ->
  Forall (fun a => exists n, sa_ip a = V4 n /\ n < 2 ^ 32 /\ sa_port a <= u16_max) l ->
  parse_list parse_sa4 local4 local6 (show_list show_sa4 l) = Ok l.
Proof.
  intros local4 local6 l Hn H. apply list_roundtrip; [exact Hn|]. rewrite Forall_forall in H. intros a Ha.
  destruct (H a Ha) as (n & E & H1 & H2). destruct a as [ip p]. cbn [sa_ip sa_port] in *. subst ip.
  split; [apply sa4_roundtrip; assumption|]. apply sa4_clean.
Qed.
Example C46_demo :
  parse_list parse_sa4 (Some (V4 5)) None (txt "127.0.0.1:8869-:8871") =
    Ok [SAddr (V4 0x7f000001) 8869; SAddr (V4 0x7f000001) 8870; SAddr (V4 0x7f000001) 8871] /\
  parse_list parse_sa4 (Some (V4 5)) None (txt "127.0.0.1:1,:2") = Ok [SAddr (V4 0x7f000001) 1; SAddr (V4 5) 2; SAddr localhost 2].
Proof. vm_compute. split; reflexivity. Qed.

Print Assumptions C23_cidr.
Print Assumptions C23_single.
Print Assumptions C23_set.
Print Assumptions C23_text.
Print Assumptions C23_text_v4.
Print Assumptions C23_text_total.
Print Assumptions C24_zero_and_v6_refuted.
Example C24_cases :
  gate_contains (Gate (V4 0) 0) (V4 7) = false /\ cidr (V4 0) 0 (V4 7) /\
  gate_contains (Gate (V6 256) 64) (V6 257) = false /\ gate_contains (Gate (V6 256) 64) (V6 256) = true /\
  gate_contains (Gate (V4 167772160) 8) (V4 167772161) = true.
Proof. split; [reflexivity|]. split; [intros i Hi; lia|]. repeat split; vm_compute; reflexivity. Qed.
Print Assumptions C24_sound_partial.
Print Assumptions C24_exact_partial.
Print Assumptions C46_range_refuted.
Print Assumptions C46_dash_refuted.
Print Assumptions C46_range_partial.
Print Assumptions C46_range_no_local_refuted.
Print Assumptions C46_list.
Print Assumptions C46_port.
Print Assumptions C46_one.
Print Assumptions C46_no_crash_partial.
Print Assumptions C46_roundtrip.
Print Assumptions C46_roundtrip_v4.
