(* Address sets and listen lists: src/config/ip_sets.rs and src/config/wrap.rs.
   The text form of an IP address or a socket address is std's; the functions
   parse_ip, show_ip, parse_sa, show_sa stand for it.  Err carries no message. *)
From Coq Require Import String.
From Verif Require Import Base Text TextOps.
Open Scope N_scope.

(* std::net::IpAddr: the number read in network byte order (u32 / u128) *)
Inductive ipaddr := V4 (n : N) | V6 (n : N).
(* the range of an address: u32 or u128 (used in statements) *)
Definition ip_ok (a : ipaddr) : Prop := match a with V4 n => n < 2 ^ 32 | V6 n => n < 2 ^ 128 end.
(* == of std::net::IpAddr (ip_sets.rs:25, 34) *)
Definition ip_eqb (a b : ipaddr) : bool :=
  match a, b with V4 x, V4 y => x =? y | V6 x, V6 y => x =? y | _, _ => false end.
(* ip_sets.rs:17-20 *)
Record gate := Gate { g_ip : ipaddr; g_len : N }.
(* ip_sets.rs:23-38; 32u8 - gate underflows (a panic in a debug build) for a
   length over 32, which the parser refuses for IPv4 *)
Definition gate_contains (g : gate) (a : ipaddr) : bool :=
  if g_len g =? 0 then ip_eqb a (g_ip g)
  else match a, g_ip g with
       | V4 x, V4 y => N.shiftr x (32 - g_len g) =? N.shiftr y (32 - g_len g)
       | _, _ => ip_eqb a (g_ip g)
       end.
(* ip_sets.rs:80-87 *)
Definition set_contains (l : list gate) (a : ipaddr) : bool := existsb (fun g => gate_contains g a) l.

Section IpText.
  Context (parse_ip : text -> option ipaddr) (show_ip : ipaddr -> text).
  (* ip_sets.rs:44-59 *)
  Definition parse_gate (s : text) : res unit gate :=
    match split_on 47 s with
    | [] => Panic   (* vals[0]; split never yields nothing *)
    | v :: vs =>
      match parse_ip v with
      | None => Err tt
      | Some ip =>
        match vs with
        | [] => Ok (Gate ip 0)
        | w :: _ =>
          match parse_uint u8_max w with
          | None => Err tt
          | Some n => match ip with
                      | V4 _ => if 32 <? n then Err tt else Ok (Gate ip n)
                      | V6 _ => if 128 <? n then Err tt else Ok (Gate ip n)
                      end
          end
        end
      end
    end.
  (* ip_sets.rs:62-70 *)
  Definition show_gate (g : gate) : text :=
    if 0 <? g_len g then show_ip (g_ip g) ++ [47] ++ show (g_len g) else show_ip (g_ip g).
  (* ip_sets.rs:91-102 *)
  Fixpoint parse_gates (ws : list text) : res unit (list gate) :=
    match ws with
    | [] => Ok []
    | w :: ws' => do g <- parse_gate w ; do gs <- parse_gates ws' ; Ok (g :: gs)
    end.
  (* ip_sets.rs:94-101 *)
  Definition parse_set (s : text) : res unit (list gate) := parse_gates (split_ws s).
  (* ip_sets.rs:104-112 *)
  Definition show_set (l : list gate) : text := List.concat (map (fun g => show_gate g ++ [32]) l).
End IpText.

(* ---- wrap.rs ------------------------------------------------------------------- *)
Record saddr := SAddr { sa_ip : ipaddr; sa_port : N }.
(* wrap.rs:30 and 32 *)
Definition localhost : ipaddr := V4 (0x7f000001).
Section Listen.
  (* parse_sa, show_sa: SocketAddr's text form; local4, local6: what
     local_ip_address::local_ip / local_ipv6 find on this machine *)
  Context (parse_sa : text -> option saddr) (show_sa : saddr -> text) (local4 local6 : option ipaddr).
  (* wrap.rs:24-29 *)
  Definition opt_addr (o : option ipaddr) (p : N) : list saddr := match o with Some ip => [SAddr ip p] | None => [] end.
  (* wrap.rs:19-39 *)
  Definition parse_addr (s : text) : res unit (list saddr) :=
    if starts_with [58] s then
      match parse_uint u16_max (trim_start_p (fun c => c =? 58) s) with
      | Some p => Ok (opt_addr local4 p ++ opt_addr local6 p ++ [SAddr localhost p])
      | None => match parse_sa (txt "127.0.0.1" ++ s) with Some a => Ok [a] | None => Err tt end
      end
    else match parse_sa s with Some a => Ok [a] | None => Err tt end.
  (* wrap.rs:45-51 WrapAddr: [0] of the list *)
  Definition parse_one (s : text) : res unit saddr :=
    do l <- parse_addr s ; match l with [] => Panic | a :: _ => Ok a end.
  (* start[0].port()..=end[1].port() *)
  Fixpoint range (n : nat) (from : N) : list N := match n with O => [] | S n' => from :: range n' (from + 1) end.
  (* wrap.rs:91: the inclusive range, empty when it runs backwards *)
  Definition ports (p q : N) : list N := if p <=? q then range (N.to_nat (q - p + 1)) p else [].
  (* wrap.rs:83, 103 filter(!s.is_empty()) *)
  Definition nonempty (s : text) : bool := match s with [] => false | _ => true end.
  (* wrap.rs:105-109 *)
  Fixpoint parse_addrs (ws : list text) : res unit (list saddr) :=
    match ws with
    | [] => Ok []
    | w :: ws' => do a <- parse_addr w ; do l <- parse_addrs ws' ; Ok (a ++ l)
    end.
  (* split(&[',', ' ']): splitting at every character of the set *)
  Definition split_sep (s : text) : list text := List.concat (map (split_on 32) (split_on 44 s)).
  (* wrap.rs:76-112 *)
  Definition parse_list (s : text) : res unit (list saddr) :=
    if existsb (fun c => c =? 45) s then
      match filter nonempty (split_on 45 s) with
      | [] => Panic                                   (* vals[0] *)
      | v :: vs =>
        do start <- parse_addr v ;
        match vs with
        | [w] =>
          do last <- parse_addr w ;
          match start, last with
          | a :: _, _ :: b :: _ =>
              Ok (List.concat (map (fun p => map (fun x => SAddr (sa_ip x) p) start) (ports (sa_port a) (sa_port b))))
          | _, _ => Panic                             (* start[0], end[1] *)
          end
        | _ => Ok start
        end
      end
    else parse_addrs (filter nonempty (split_sep s)).
  (* wrap.rs:114-122 *)
  Fixpoint join (sep : text) (l : list text) : text :=
    match l with [] => [] | [x] => x | x :: l' => x ++ sep ++ join sep l' end.
  (* wrap.rs:114-122 *)
  Definition show_list (l : list saddr) : text := join [44] (map show_sa l).
  (* wrap.rs:133-140 *)
  Definition list_contains (l : list saddr) (port : N) : bool := existsb (fun a => sa_port a =? port) l.
End Listen.
