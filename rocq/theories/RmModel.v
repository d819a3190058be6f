(* The service a tunnel server runs for a stream its peer opens:
   src/streams/center_server.rs:186-207, over PxModel (the proxy) and CsModel (the
   streams). *)
From Verif Require Import Base Text AddrModel SocksModel HttpProxyModel BuModel PlModel CsModel PxModel.
Open Scope N_scope.

(* center_server.rs:174-176: the words a peer has to say first are the user and the password
   of the settings *)
Definition remote_creds (s : pbuilt) : creds := Creds (bu_user s) (bu_pass s).
Section Remote.
  (* see PxModel *)
  Context (requests : inp -> list (hreq * bool * option bool)) (resolve : bytes -> N -> option (list saddr)) (connect : saddr -> bool).
  (* center_server.rs:197-206: a proxy with the flag, the user, the password and the UDP
     address of the settings of this side; segs: the bytes of the stream as they are read *)
  Definition deal_remote (s : pbuilt) (room : nat) (segs : list bytes) : given_to :=
    deal_proxy requests resolve connect s room segs.
End Remote.
