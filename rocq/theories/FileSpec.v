(* What the file server is supposed to do, in words of files and RFC 7233. *)
From Coq Require Import String.
From Verif Require Import Base Text TextOps FileModel.
Open Scope N_scope.

(* the text of the path of names from the top of the tree *)
Fixpoint full_path (ns : list text) : text := match ns with [] => [] | n :: ns' => 47 :: n ++ full_path ns' end.
(* ns is root or below it *)
Definition below (root ns : list text) : Prop := exists more, ns = root ++ more.
(* h occurs in s *)
Definition occurs (h s : text) : Prop := exists a b, s = a ++ h ++ b.
(* a name a directory entry can have *)
Definition name_ok (n : text) : Prop := n <> [] /\ n <> txt "." /\ n <> txt ".." /\ ~ In 47 n.
(* all names of the tree are such names *)
Definition names_wf (t : node) : Prop := forall ns n, In n (match at_names t ns with Some (Dir es) => map fst es | _ => [] end) -> name_ok n.

(* RFC 7233 2.1: one byte-range-spec; the interval of positions it selects, if any *)
Inductive range := FirstLast (a b : N) | From (a : N) | Suffix (n : N).
Definition range_text (r : range) : text :=
  txt "bytes=" ++ match r with FirstLast a b => show a ++ txt "-" ++ show b | From a => show a ++ txt "-" | Suffix n => txt "-" ++ show n end.
Definition range_valid (r : range) : Prop := match r with FirstLast a b => a <= b <= u64_max | From a => a <= u64_max | Suffix n => n <= u64_max end.
Definition selects (r : range) (len : N) (o : option (N * N)) : Prop :=
  match r with
  | FirstLast a b => o = if a <? len then Some (a, N.min b (len - 1)) else None
  | From a => o = if a <? len then Some (a, len - 1) else None
  | Suffix n => o = if (0 <? n) && (0 <? len) then Some (len - N.min n len, len - 1) else None
  end.

(* the file or directory a response shows *)
Definition shows (r : fresp) (ns : list text) : Prop :=
  (exists content part, s_body r = BFile ns content part) \/ (exists links, s_body r = BList ns links).

(* no pattern of the configuration to hide files occurs in p *)
Definition unhidden (c : fcfg) (p : text) : Prop := forall h, In h (f_hide c) -> ~ occurs h p.
(* request q asks for the file of content and mtime found under ns: below the prefix,
   nothing encoded, nothing hidden, no precompressed form *)
Definition asks_for (fs : node) (cwd : list text) (cwdt : text) (c : fcfg) (q : freq) (ns : list text) (content : bytes) (mt : option N) : Prop :=
  exists x, q_path q = f_prefix c ++ 47 :: x /\ f_robots c = None /\ ~ In 37 (q_path q) /\
    unhidden c (root_of cwdt c) /\ unhidden c (q_path q) /\
    resolve fs cwd (root_of cwdt c ++ 47 :: x) = Some ns /\ at_names fs ns = Some (File content mt) /\
    (f_pre c = [] \/ q_accept q = None).

(* p is root or lies under it, by the components of their texts *)
Definition under (root p : text) : Prop := exists more, comps p = comps root ++ more.
(* request path root/x is a directory whose first existing index is named by an absolute
   path, is itself a directory and has an entry that is not hidden and not under the root *)
Definition foreign_index (fs : node) (cwd : list text) (cwdt : text) (c : fcfg) (x : text) : Prop :=
  exists before i after ms es n, f_index c = before ++ (47 :: i) :: after /\
    is_dir fs cwd (root_of cwdt c ++ 47 :: x) = true /\
    (forall j, In j before -> resolve fs cwd (join (root_of cwdt c ++ 47 :: x) j) = None) /\
    resolve fs cwd (47 :: i) = Some ms /\ at_names fs ms = Some (Dir es) /\ In n (map fst es) /\
    unhidden c (join (47 :: i) n) /\ ~ under (root_of cwdt c) (join (47 :: i) n) /\
    unhidden c (root_of cwdt c) /\ f_browse c = true.
