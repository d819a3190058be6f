(* The bridge of src/streams/trans_stream.rs used as a byte stream, before it is started:
   what its two public buffers take, and AsyncRead and AsyncWrite. *)
From Verif Require Import Base ProtModel VsModel.
Open Scope N_scope.

(* what the stream inside answers to poll_read: nothing yet, an error, some bytes (no bytes:
   its end).  How many bytes it may give is bounded by the room reserved, at least one
   (trans_stream.rs:147); the bound itself is not modelled. *)
Inductive polled := PPend | PErr | PData (b : bytes).
(* calls from outside *)
Inductive hev :=
| HPutRead (b : bytes)           (* reader_mut().put_slice(b): trans_stream.rs:68-70 *)
| HPutWrite (b : bytes)          (* write_mut().put_slice(b): trans_stream.rs:72-74 *)
| HRead (n : N) (p : polled)     (* poll_read with room for n bytes; p: the answer of the stream, if it is asked *)
| HWrite (b : bytes) (k : option N). (* poll_write; k: how many bytes the stream takes, None: not ready *)
(* what happens *)
Inductive heff :=
| HPut (b : bytes)               (* bytes put into reader_mut *)
| HPutW (b : bytes)              (* bytes put into write_mut *)
| HTook (b : bytes)              (* bytes taken from the stream *)
| HEnded                         (* the stream said that it has ended *)
| HGot (b : bytes)               (* poll_read: Ready *)
| HPend | HFail
| HPassed (b : bytes).           (* bytes given to the stream *)

(* trans_stream.rs:162-183 poll_read and 146-160 stream_read; the state is self.read *)
Definition hread (n : N) (p : polled) (buf : bytes) : bytes * list heff :=
  let give buf l := let k := N.to_nat (N.min (nlen buf) n) in (skipn k buf, l ++ [HGot (firstn k buf)]) in
  match buf with
  | [] =>
    match p with
    | PPend => (buf, [HPend])
    | PErr => (buf, [HFail])
    | PData [] => (buf, [HEnded; HGot []])
    | PData b => give b [HTook b]
    end
  | _ => give buf []
  end.
(* trans_stream.rs:68-74 (both hand out self.read) and 162-210 *)
Definition hstep (buf : bytes) (e : hev) : bytes * list heff :=
  match e with
  | HPutRead b => (buf ++ b, [HPut b])
  | HPutWrite b => (buf ++ b, [HPutW b])
  | HRead n p => hread n p buf
  | HWrite b k => (buf, match k with Some k => [HPassed (firstn (N.to_nat k) b)] | None => [HPend] end)
  end.
(* model only: a row of calls *)
Fixpoint hrun (buf : bytes) (es : list hev) : bytes * list heff :=
  match es with
  | [] => (buf, [])
  | e :: es' => let '(b1, o1) := hstep buf e in let '(b2, o2) := hrun b1 es' in (b2, o1 ++ o2)
  end.
(* trans_stream.rs:52-66 and 138: made, used, then started with copy_wait *)
Definition started (id : N) (es : list hev) : tst := t_init id (fst (hrun [] es)).
