(* SOCKS5 on the wire (RFC 1928, RFC 1929), independently of the code. *)
From Verif Require Import Base AddrModel SocksModel.
Open Scope N_scope.

(* everything the client sends on the connection, whatever the segmentation *)
Definition sent (i : inp) : bytes := fst i ++ concat (snd i).
(* no segment is empty: an empty read is the end of the connection *)
Definition alive (i : inp) : Prop := Forall (fun s => s <> []) (snd i).

Definition greeting (methods : bytes) : bytes := 5 :: nlen methods :: methods.
Definition credentials (u p : bytes) : bytes := 1 :: nlen u :: u ++ nlen p :: p.
Definition addr_ok (a : saddr) : Prop := ip_ok (sa_ip a) /\ sa_port a < 65536.
(* the big-endian value of a byte string *)
Fixpoint value (b : bytes) : N := match b with [] => 0 | x :: r => x * 256 ^ nlen r + value r end.
(* the bytes of a request address, and the address they ask for *)
Inductive asks (resolve : bytes -> N -> option (list saddr)) : bytes -> saddr -> Prop :=
| asks_v4 ip port : length ip = 4%nat -> length port = 2%nat -> asks resolve (1 :: ip ++ port) (SAddr (V4 (value ip)) (value port))
| asks_v6 ip port : length ip = 16%nat -> length port = 2%nat -> asks resolve (4 :: ip ++ port) (SAddr (V6 (value ip)) (value port))
| asks_name name port a l : length port = 2%nat -> resolve name (value port) = Some (a :: l) ->
    asks resolve (3 :: nlen name :: name ++ port) a.
Definition request_msg (cmd : N) (addr : bytes) : bytes := [5; cmd; 0] ++ addr.
(* the whole negotiation: what a client of this server sends between greeting and
   request, what it is answered before its request, and whether it can log in at all
   (an empty name or password is refused) *)
Definition auth_msg (c : scfg) : bytes := match user c, pass c with Some u, Some p => credentials u p | _, _ => [] end.
Definition answers (c : scfg) : list sev :=
  match user c, pass c with Some _, Some _ => [EvWrite [5; 2]; EvWrite [1; 0]] | _, _ => [EvWrite [5; 0]] end.
Definition usable (c : scfg) : Prop := match user c, pass c with Some u, Some p => u <> [] /\ p <> [] | _, _ => True end.
