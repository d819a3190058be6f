(* How the eight timeouts of the http section are read from a configuration file:
   src/config/mod.rs:35-87 (DisplayFromStrOrNumber) and src/reverse/common.rs:24-47.
   A section is its keys and values; keys occur once (both formats refuse a file in
   which one occurs twice).  Other keys and the layout of the file are not modelled. *)
From Coq Require Import String ZArith.
From Verif Require Import Base Text TextOps ConfModel.
Open Scope N_scope.

(* arg.rs:299-313: the two formats *)
Inductive format := Yaml | Toml.
(* a value of reverse/common.rs:32-47 in the file: text (bare or in quotes), a whole number, anything else (a number
   with a fraction, a boolean, a date, a list, a table).  The null of yaml, which is the
   same as leaving the key out, is not among them. *)
Inductive scalar := SText (s : text) | SInt (z : Z) | SOther.
(* the method of the serde visitor that is called with a value *)
Inductive visit := VStr (s : text) | VI64 (z : Z) | VU64 (n : N) | VOther.

(* Display of i64 *)
Definition show_z (z : Z) : text := if (z <? 0)%Z then 45 :: show (Z.to_N (- z)) else show (Z.to_N z).
(* serde_yaml and toml, deserialize_any (also through the Content of a flattened struct,
   common.rs is flattened into http.rs, server.rs and location.rs): serde_yaml tries u64,
   then i64, then wider types; toml has i64 only, and a file with a larger number is not
   read at all (None) *)
Definition deliver (f : format) (v : scalar) : option visit :=
  match v with
  | SText s => Some (VStr s)
  | SOther => Some VOther
  | SInt z =>
    match f with
    | Yaml => Some (if (0 <=? z)%Z then (if (z <? 2 ^ 64)%Z then VU64 (Z.to_N z) else VOther)
                    else if (- 2 ^ 63 <=? z)%Z then VI64 z else VOther)
    | Toml => if ((- 2 ^ 63 <=? z) && (z <? 2 ^ 63))%Z then Some (VI64 z) else None
    end
  end.
(* config/mod.rs:58-82 Helper: visit_str and visit_i64; every other method is serde's
   default, an error *)
Definition helper {A} (parse : text -> res unit A) (v : visit) : res unit A :=
  match v with
  | VStr s => parse s
  | VI64 z => parse (show_z z)
  | VU64 _ | VOther => Err tt
  end.
(* config/mod.rs:54-86 deserialize_as *)
Definition read_as {A} (parse : text -> res unit A) (f : format) (v : scalar) : res unit A :=
  match deliver f v with Some x => helper parse x | None => Err tt end.

(* reverse/common.rs:32-47 *)
Definition timeouts : list text :=
  [txt "client_read_timeout"; txt "client_write_timeout"; txt "client_timeout"; txt "client_ka_timeout";
   txt "proxy_connect_timeout"; txt "proxy_read_timeout"; txt "proxy_write_timeout"; txt "proxy_timeout"].
(* reverse/common.rs:32-47: the derived Deserialize: a timeout that is not written is None,
   the first value that cannot be read ends it.  Result: the timeouts set, in nanoseconds. *)
Fixpoint read_timeouts (f : format) (sec : list (text * scalar)) (ks : list text) : res unit (list (text * N)) :=
  match ks with
  | [] => Ok []
  | k :: ks' =>
    match lookup leqb k sec with
    | None => read_timeouts f sec ks'
    | Some v => do d <- read_as parse_dur f v ; do r <- read_timeouts f sec ks' ; Ok ((k, d) :: r)
    end
  end.
(* reverse/common.rs:24-47 *)
Definition read_section (f : format) (sec : list (text * scalar)) : res unit (list (text * N)) := read_timeouts f sec timeouts.
