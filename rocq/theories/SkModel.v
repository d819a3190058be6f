(* Opening of listening sockets: src/helper.rs:77-148 over the socket table of the
   operating system (Linux), and the start of a server as the list of the sockets it opens. *)
From Coq Require Import String.
From Verif Require Import Base Text TextOps AddrModel ConfModel RouteModel BindModel.
Open Scope N_scope.

(* An open socket that is bound: its address, the process and the user it belongs to, and
   whether SO_REUSEPORT was set before bind.  One table per protocol. *)
Record ksock := KSock { k_at : saddr; k_proc : N; k_user : N; k_share : bool }.
(* 0.0.0.0 and :: *)
Definition any_ip (i : ipaddr) : bool := match i with V4 n | V6 n => n =? 0 end.
(* IP version *)
Definition is_v6 (a : saddr) : bool := match sa_ip a with V6 _ => true | V4 _ => false end.
(* Linux, inet_csk_get_port and udp_lib_get_port: two addresses of which one stands in the way of the
   other.  set_only_v6(false), helper.rs:101, 134: :: includes the IPv4 addresses. *)
Definition overlap (a b : saddr) : bool :=
  (sa_port a =? sa_port b) && (ip_eqb (sa_ip a) (sa_ip b) || any_ip (sa_ip a) || any_ip (sa_ip b)).

Section Sockets.
  (* the system: are there sockets of that IP version (true: IPv6); is the address one of
     this machine's and the port allowed to the process; the process and its user; does
     listen succeed on a bound socket *)
  Context (family : bool -> bool) (here : saddr -> bool) (proc user : N) (listens : saddr -> bool).

  (* bind(2) of a socket of the given version with SO_REUSEADDR and SO_REUSEPORT set
     (helper.rs:102-103, 135-136; on Windows 84-86 the second is left out, not modelled);
     port 0 takes a free port, which is not modelled *)
  Definition sys_bind (v6 : bool) (table : list ksock) (a : saddr) : option (list ksock) :=
    if Bool.eqb v6 (is_v6 a) && here a &&
       forallb (fun s => negb (overlap a (k_at s)) || (k_share s && (k_user s =? user))) table
    then Some (KSock a proc user true :: table) else None.

  (* helper.rs:89-125 bind, over the addresses the name stands for.  The socket of an
     address at which listen failed is closed when the next one is tried. *)
  Fixpoint helper_bind (table : list ksock) (addrs : list saddr) : res unit (saddr * list ksock) :=
    match addrs with
    | [] => Err tt
    | a :: rest =>
      if negb (family (is_v6 a)) then Err tt
      else match sys_bind (is_v6 a) table a with
           | None => Err tt
           | Some table' => if listens a then Ok (a, table') else helper_bind table rest
           end
    end.
  (* helper.rs:128-148 bind_upd: always an IPv4 socket; the loop ends in its first turn *)
  Definition helper_bind_upd (table : list ksock) (addrs : list saddr) : res unit (saddr * list ksock) :=
    match addrs with
    | [] => Err tt
    | a :: _ =>
      if negb (family false) then Err tt
      else match sys_bind false table a with None => Err tt | Some table' => Ok (a, table') end
    end.

  (* the start of a server: Helper::bind of each of its addresses in turn (option.rs:609-676,
     reverse/http.rs:216-241, reverse/stream.rs:71-86); the first failure ends it *)
  Fixpoint open_all (table : list ksock) (l : list saddr) : res unit (list ksock) :=
    match l with
    | [] => Ok table
    | a :: l' => do (_, t) <- helper_bind table [a] ; open_all t l'
    end.
  (* what the stream section needs to know (BindModel): can the address be bound, given the
     tcp and the udp sockets there are *)
  Definition can_open (tcp udp : list ksock) (is_udp : bool) (a : saddr) : bool :=
    match (if is_udp then helper_bind_upd udp [a] else helper_bind tcp [a]) with Ok _ => true | _ => false end.
End Sockets.
