(* Bytes into and out of a stream that is read through a buffer. *)
From Verif Require Import Base TsModel.
Open Scope N_scope.

(* what the reader got *)
Definition got (tr : list heff) : bytes := flat_map (fun e => match e with HGot b => b | _ => [] end) tr.
(* what there was to be read: what was put for it and what the stream gave, in order *)
Definition to_read (tr : list heff) : bytes := flat_map (fun e => match e with HPut b | HTook b => b | _ => [] end) tr.
(* what was put to be written *)
Definition to_write (tr : list heff) : bytes := flat_map (fun e => match e with HPutW b => b | _ => [] end) tr.
(* what the stream was given *)
Definition passed (tr : list heff) : bytes := flat_map (fun e => match e with HPassed b => b | _ => [] end) tr.
(* the bytes that writes were told were taken *)
Definition taken (es : list hev) : bytes := flat_map (fun e => match e with HWrite b (Some k) => firstn (N.to_nat k) b | _ => [] end) es.
Definition is_prefix (a b : bytes) : Prop := exists c, b = a ++ c.
