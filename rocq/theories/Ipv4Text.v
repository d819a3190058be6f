(* The text form of IPv4 addresses and IPv4 socket addresses as std reads and
   prints it (core::net: four decimal octets of at most three digits without
   leading zero; a port of decimal digits).  Not part of /repo: it gives the
   parameters parse_ip, show_ip, parse_sa and show_sa of the address models a
   concrete meaning. *)
From Verif Require Import Base Text TextOps AddrModel AddrSpec AddrProofs.
Open Scope N_scope.

Definition octet (s : text) : option N :=
  match s with
  | [] => None
  | c :: s' =>
    if (nlen s <=? 3) && (negb (c =? 48) || match s' with [] => true | _ => false end) && forallb is_digit s
    then parse_uint u8_max s else None
  end.
Definition parse_v4 (s : text) : option N :=
  match split_on 46 s with
  | [a; b; c; d] =>
    match octet a, octet b, octet c, octet d with
    | Some a, Some b, Some c, Some d => Some (a * 16777216 + b * 65536 + c * 256 + d)
    | _, _, _, _ => None
    end
  | _ => None
  end.
Definition show_v4 (n : N) : text :=
  show (n / 16777216 mod 256) ++ [46] ++ show (n / 65536 mod 256) ++ [46] ++ show (n / 256 mod 256) ++ [46] ++ show (n mod 256).
Definition port_of (s : text) : option N := match s with [] => None | _ => if forallb is_digit s then parse_uint u16_max s else None end.
Definition parse_sa4 (s : text) : option saddr :=
  match split_on 58 s with
  | [a; p] => match parse_v4 a, port_of p with Some n, Some p => Some (SAddr (V4 n) p) | _, _ => None end
  | _ => None
  end.
Definition show_sa4 (a : saddr) : text :=
  match sa_ip a with V4 n => show_v4 n ++ [58] ++ show (sa_port a) | V6 _ => [] end.

Lemma show_small n : n < 256 -> octet (show n) = Some n.
Proof.
  intros H.
  assert (G : forallb (fun k => match octet (show (N.of_nat k)) with Some m => m =? N.of_nat k | None => false end) (seq 0 256) = true)
    by (vm_compute; reflexivity).
  rewrite forallb_forall in G. specialize (G (N.to_nat n)). rewrite in_seq in G. specialize (G ltac:(lia)).
  rewrite N2Nat.id in G. destruct (octet (show n)); [|discriminate]. apply N.eqb_eq in G. congruence.
Qed.
Lemma show_no d n : is_digit d = false -> no_char d (show n) = true.
Proof. intros H. apply digit_no_char; [exact H|apply show_digits]. Qed.
Lemma v4_roundtrip n : n < 2 ^ 32 -> parse_v4 (show_v4 n) = Some n.
Proof.
  intros H. change (2 ^ 32) with 4294967296 in H. unfold parse_v4, show_v4. cbn [app].
  rewrite !split_on_app by (apply show_no; reflexivity). rewrite split_on_one by (apply show_no; reflexivity).
  rewrite !show_small by (apply N.mod_lt; lia). f_equal. lia.
Qed.
Lemma show_v4_no d n : is_digit d = false -> d <> 46 -> no_char d (show_v4 n) = true.
Proof.
  intros H H2. unfold show_v4. rewrite !no_char_app, !show_no by exact H. cbn. replace (46 =? d) with false by lia. reflexivity.
Qed.
Lemma show_v4_head n s : starts_with [58] (show_v4 n ++ s) = false /\ show_v4 n ++ s <> [].
Proof.
  unfold show_v4. pose proof (show_digits (n / 16777216 mod 256)) as H. pose proof (show_nonempty (n / 16777216 mod 256)) as H0.
  destruct (show (n / 16777216 mod 256)) as [|c l]; [contradiction|]. cbn [app]. split; [|discriminate].
  unfold starts_with. cbn [strip_prefix]. cbn in H. apply andb_true_iff in H as [H _]. unfold is_digit in H.
  replace (58 =? c) with false by lia. reflexivity.
Qed.
Lemma port_roundtrip p : p <= u16_max -> port_of (show p) = Some p.
Proof.
  intros H. unfold port_of. rewrite show_digits, parse_show by exact H. pose proof (show_nonempty p). destruct (show p); [contradiction|reflexivity].
Qed.
Lemma sa4_roundtrip n p : n < 2 ^ 32 -> p <= u16_max -> parse_sa4 (show_sa4 (SAddr (V4 n) p)) = Some (SAddr (V4 n) p).
Proof.
  intros H Hp. unfold parse_sa4, show_sa4. cbn [sa_ip sa_port app].
  rewrite split_on_app by (apply show_v4_no; [reflexivity|lia]). rewrite split_on_one by (apply show_no; reflexivity).
  rewrite v4_roundtrip by exact H. rewrite port_roundtrip by exact Hp. reflexivity.
Qed.
Lemma sa4_clean n p : clean (show_sa4 (SAddr (V4 n) p)) /\ starts_with [58] (show_sa4 (SAddr (V4 n) p)) = false.
Proof.
  unfold show_sa4. cbn [sa_ip sa_port]. destruct (show_v4_head n ([58] ++ show p)) as [A B]. split; [|exact A].
  split; [exact B|]. rewrite !no_char_app, !show_no by reflexivity. rewrite !show_v4_no by (try reflexivity; lia). repeat split.
Qed.
