(* A tunnel connection that may be a reconnection. *)
From Verif Require Import Base Text ProtModel ProtSpec CsModel CsSpec CcModel CcSpec TunSpec ReModel.
Open Scope N_scope.

(* Like [tunnel] (TunSpec), but the client has had the earlier connections ess. *)
Record retunnel (c : creds) (ms : list mapping) (ess : list (list kev)) (k0 : kst)
  (kes : list kev) (es : list ev)
  (kst : kst) (ktr : list keff) (st : sst) (tr : list eff) : Prop := Retunnel {
  r_before : sessions c ms ess k0;
  r_client : krun k0 kes = (kst, ktr);
  r_server : run c (s_init c) es = (st, tr);
  r_up : prefix (bytes_read tr) (kwritten ktr);
  r_down : prefix (kbytes_read ktr) (written tr);
  r_creds : (exists u p, c = Creds (Some u) (Some p) /\ short_string u /\ short_string p) \/
            c = Creds None None;
  r_maps : fits (FMapping 0 ms) /\ Forall (fun m => m_name m <> []) ms;
  r_kev : Forall (Forall kev_ok) ess /\ Forall kev_ok kes;
  r_ev : Forall ev_ok es
}.
