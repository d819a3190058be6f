(* C39, C40: which Range headers are understood, and what is answered for an interval. *)
From Coq Require Import String.
From Verif Require Import Base Text TextOps FileModel FileSpec CxSpec GxSpec.
Open Scope N_scope.

(* The interval of a header for a file of length len: the unit bytes (blanks around it are
   ignored), a sign =, no other such sign; of the ranges that follow, separated by commas,
   the first counts, blanks around it ignored: two numbers with a sign - between them. The
   first can be missing and is then 0, the second can be missing and is then the length. *)
Definition interval (v : text) (len s e : N) : Prop :=
  exists u w r rs a b, pieces 61 v [u; w] /\ trim u = txt "bytes" /\ pieces 44 w (r :: rs) /\ pieces 45 (trim r) [a; b] /\
    (a = [] /\ s = 0 \/ count a s) /\ (b = [] /\ e = len \/ count b e) /\ s <= e.

(* a plain GET with the header Range: v *)
Definition asks_range (q : freq) (v : text) : Prop :=
  q_head q = false /\ q_if_range q = None /\ q_accept_ranges q = None /\ q_range q = Some v.
Definition no_conditions (q : freq) : Prop := q_inm q = None /\ q_ims q = None.
(* the answer with the bytes of an interval *)
Definition partial_answer (ns : list text) (content : bytes) (s e : N) (r : fresp) : Prop :=
  s_status r = 206 /\ s_body r = BFile ns content (Some (s, e)) /\
  hget (txt "Content-Range") r = Some (txt "bytes " ++ show s ++ txt "-" ++ show e ++ txt "/" ++ show (nlen content)).
(* the answer that there is nothing to send *)
Definition empty_answer (content : bytes) (r : fresp) : Prop :=
  s_status r = 416 /\ s_body r = BNone /\ hget (txt "Content-Range") r = Some (txt "bytes */" ++ show (nlen content)).
(* the answer RFC 7233 prescribes *)
Definition rfc_answer (g : range) (ns : list text) (content : bytes) (r : fresp) : Prop :=
  (forall s e, selects g (nlen content) (Some (s, e)) -> partial_answer ns content s e r) /\
  (selects g (nlen content) None -> empty_answer content r).
