(* What a row of builder calls asks for. *)
From Verif Require Import Base AddrModel ProtModel BuModel.
Open Scope N_scope.

(* 127.0.0.1:8090 *)
Definition default_port : saddr := SAddr (V4 (127 * 2 ^ 24 + 1)) 8090.

(* v is what the last call that says something said, or d when no call does *)
Definition last_said {A} (says : bcall -> option A) (cs : list bcall) (d v : A) : Prop :=
  (v = d /\ forall c, In c cs -> says c = None) \/
  exists before c after, cs = before ++ c :: after /\ says c = Some v /\ forall x, In x after -> says x = None.

Definition says_bind c := match c with BBind a => Some (Some a) | _ => None end.
Definition says_center c := match c with BCenter a => Some (Some a) | _ => None end.
Definition says_server c := match c with BServer s => Some s | _ => None end.
Definition says_ts c := match c with BTs b => Some b | _ => None end.
Definition says_tc c := match c with BTc b => Some b | _ => None end.
Definition says_cert c := match c with BCert s => Some s | _ => None end.
Definition says_key c := match c with BKey s => Some s | _ => None end.
Definition says_domain c := match c with BDomain s => Some s | _ => None end.
Definition says_user c := match c with BUser s => Some s | _ => None end.
Definition says_pass c := match c with BPass s => Some s | _ => None end.
Definition says_udp c := match c with BUdp i => Some i | _ => None end.
Definition says_http c := match c with BHttp a => Some a | _ => None end.
Definition says_https c := match c with BHttps a => Some a | _ => None end.
Definition says_tcp c := match c with BTcp a => Some a | _ => None end.
Definition says_proxy c := match c with BProxy a => Some a | _ => None end.

(* bit i of the flags is asked for: by the last flag call or an added flag after it; without
   a flag call also when it is one of http, https, socks5 (bits 0, 1, 2) *)
Definition sets_all c := match c with BFlag _ => true | _ => false end.
Definition asks (i : N) c := match c with BFlag f | BAddFlag f => N.testbit f i | _ => false end.
Definition bit_asked (i : N) (cs : list bcall) : Prop :=
  (exists before c after, cs = before ++ c :: after /\ asks i c = true /\ forall x, In x after -> sets_all x = false) \/
  (i < 3 /\ forall x, In x cs -> sets_all x = false).
(* the mappings given, in order *)
Inductive mappings_of : list bcall -> list mapping -> Prop :=
| mo_nil : mappings_of [] []
| mo_map m cs ms : mappings_of cs ms -> mappings_of (BMapping m :: cs) (m :: ms)
| mo_other c cs ms : (forall m, c <> BMapping m) -> mappings_of cs ms -> mappings_of (c :: cs) ms.
