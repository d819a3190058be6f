(* From the words of a ws-proxy command to what is done with a connection of a client: the
   section src/arg.rs:513-540 builds (ArgModel), loaded by FsModel, and
   reverse/stream.rs:93-136. *)
From Coq Require Import String.
From Verif Require Import Base Text TextOps AddrModel ConfModel HealthModel RouteModel ArgModel TgtModel FsModel RpModel.
Open Scope N_scope.

(* what is done with a connection: the address it is connected to, the name given to the
   other side if there is one, and the conversion (reverse/stream.rs:110-127) *)
Record link := Link { k_to : saddr; k_name : option text; k_how : conversion }.
Section Link.
  Context (connect_url : url -> option text) (resolve : text -> option (list saddr)) (name_of : saddr -> addr) (sa : addr -> saddr).
  (* reverse/stream.rs:101-132: the first server with the port; Ok None: the connection is
     dropped.  A server of a command has no proxy_url and no upstreams of its own; those of
     the section are appended by reverse/stream.rs:60-65. *)
  Definition linked (s : asection) (port : N) (m : moment) : res unit (option link) :=
    match find (fun v => list_contains (as_bind v) port) (ac_servers s) with
    | None => Ok None
    | Some v =>
      do p <- stream_target connect_url resolve (as_domain v) None (stream_upstreams [] (ups_now name_of sa s m)) (as_up v) ;
      match fst p with
      | None => Err tt
      | Some a => Ok (Some (Link a (snd p) (converts (as_mode v))))
      end
    end.
End Link.
