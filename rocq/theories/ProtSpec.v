(* What the tunnel wire format can carry, stated without the encoder. *)
From Verif Require Import Base Text ProtModel.
Open Scope N_scope.

(* A stream id on the wire: 32-bit server id, 24-bit stream number. *)
Definition wire_sock (s : N) : Prop :=
  exists sid id, sid < 2 ^ 32 /\ id < 2 ^ 24 /\ s = sid * 2 ^ 32 + id.

(* A string with a one-byte length. *)
Definition short_string (s : bytes) : Prop := is_string s /\ nlen s <= 255.

Definition rule_fits (r : hrule) : Prop := short_string (hr_key r) /\ short_string (hr_val r).
Definition mapping_fits (m : mapping) : Prop :=
  short_string (m_name m) /\ short_string (m_mode m) /\ short_string (m_domain m) /\
  nlen (m_headers m) < 2 ^ 16 /\ Forall rule_fits (m_headers m).

(* Number of payload bytes of a mapping frame. *)
Definition rule_size (r : hrule) : N := 4 + nlen (hr_key r) + nlen (hr_val r).
Definition mapping_size (m : mapping) : N :=
  5 + nlen (m_name m) + nlen (m_mode m) + nlen (m_domain m)
  + fold_right (fun r n => rule_size r + n) 0 (m_headers m).
Definition mappings_size (ms : list mapping) : N :=
  2 + fold_right (fun m n => mapping_size m + n) 0 ms.

(* The frames the wire format can carry. *)
Definition fits (f : frame) : Prop :=
  match f with
  | FCreate s d => wire_sock s /\ match d with None => True | Some d => d <> [] /\ short_string d end
  | FClose s r => wire_sock s /\ short_string r
  | FData s d => wire_sock s /\ bytes_ok d = true /\ nlen d < 2 ^ 24
  | FMapping s ms => wire_sock s /\ nlen ms < 2 ^ 16 /\ Forall mapping_fits ms /\
                     mappings_size ms < 2 ^ 24
  | FToken u p => short_string u /\ short_string p
  end.

(* What the peer is meant to see of a frame: everything but the private local
   addresses of the mappings. *)
Definition public_mapping (m : mapping) : mapping :=
  Mapping (m_name m) (m_mode m) None (m_domain m) (m_headers m).
Definition public (f : frame) : frame :=
  match f with FMapping s ms => FMapping s (map public_mapping ms) | _ => f end.

(* The bytes of a sequence of frames on the wire. *)
Definition wire (fs : list frame) : bytes := flat_map (fun f => fst (encode f)) fs.

(* Length of the frame announced by the first bytes of a buffer (12-byte header
   plus 24-bit payload length). *)
Definition announced (b : bytes) : option N :=
  match b with x :: y :: z :: _ => Some (12 + (x * 65536 + y * 256 + z)) | _ => None end.

(* How many of the frames [fs] are completely contained in the first [n] bytes
   of their wire form. *)
Fixpoint complete (n : N) (fs : list frame) : list frame :=
  match fs with
  | [] => []
  | f :: fs' =>
    let len := nlen (fst (encode f)) in
    if len <=? n then f :: complete (n - len) fs' else []
  end.
