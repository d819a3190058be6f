(* Allocation of stream ids on the two ends of a tunnel. *)
From Verif Require Import Base ProtModel.
Open Scope N_scope.

(* src/streams/center_server.rs:86-90 and src/streams/center_client.rs:365-369
   calc_next_id: the id handed out and the new value of next_id (u32,
   wrapping_add). *)
Definition calc_next_id (server_id next_id : N) : N * N :=
  (calc_sock_map server_id next_id, (next_id + 2) mod 4294967296).

(* src/streams/center_client.rs:83 / src/streams/center_server.rs:69 *)
Definition client_first : N := 1.
(* src/streams/center_server.rs:69 *)
Definition server_first : N := 2.

(* The first [n] ids allocated by one end. *)
Fixpoint allocate (server_id next_id : N) (n : nat) : list N :=
  match n with
  | O => []
  | S n' => let '(id, next) := calc_next_id server_id next_id in
            id :: allocate server_id next n'
  end.
