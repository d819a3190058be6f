(* Certificates of the http section: src/reverse/http.rs:138-260, with rustls_pemfile's
   reading of files and rustls' ResolvesServerCertUsingSni. *)
From Coq Require Import String.
From Verif Require Import Base Text TextOps AddrModel ConfModel.
Open Scope N_scope.

(* What a PEM file holds, in order: certificates, keys by their format (BEGIN RSA PRIVATE
   KEY, BEGIN PRIVATE KEY, BEGIN EC PRIVATE KEY), and a section that cannot be read.
   A certificate or key is known by a number. *)
Inductive item := ICert (c : N) | IRsa (k : N) | IPkcs8 (k : N) | IEc (k : N) | IBad.
(* what is found at a path; None: it cannot be opened *)
Definition pem := option (list item).
(* a server with both files configured or not: value.cert, value.key; comm.domain and
   up_name (reverse/http.rs:198-208) *)
Record tsite := TSite { t_domain : option text; t_up : text; t_cert : option pem; t_key : option pem }.
(* what a client is shown: the chain and the key it is signed with *)
Definition ident : Type := list N * N.
(* rustls: to_ascii_lowercase of a name (DnsName::to_lowercase_owned) *)
Definition low (n : text) : text := map lower n.

(* rustls_pemfile::certs, collected: the first unreadable section is an error *)
Fixpoint pem_certs (l : list item) : res unit (list N) :=
  match l with
  | [] => Ok []
  | ICert c :: l' => do r <- pem_certs l' ; Ok (c :: r)
  | IBad :: _ => Err tt
  | _ :: l' => pem_certs l'
  end.
(* rustls_pemfile::rsa_private_keys, collected *)
Fixpoint pem_rsa (l : list item) : res unit (list N) :=
  match l with
  | [] => Ok []
  | IRsa k :: l' => do r <- pem_rsa l' ; Ok (k :: r)
  | IBad :: _ => Err tt
  | _ :: l' => pem_rsa l'
  end.
(* reverse/http.rs:138-154 load_certs *)
Definition load_certs (p : option pem) : res unit (list N) :=
  match p with Some (Some l) => pem_certs l | _ => Err tt end.
(* reverse/http.rs:156-183 load_keys *)
Definition load_keys (p : option pem) : res unit N :=
  match p with
  | Some (Some l) => do ks <- pem_rsa l ; match ks with [k] => Ok k | _ => Err tt end
  | _ => Err tt
  end.
(* reverse/http.rs:198 *)
Definition tls_site (s : tsite) : bool := match t_cert s, t_key s with Some _, Some _ => true | _, _ => false end.
(* reverse/http.rs:208 *)
Definition t_name (s : tsite) : text := match t_domain s with Some d => d | None => t_up s end.

(* the certificates of the acceptor: one for all, or one for each name *)
Inductive certs := One (i : ident) | ByName (m : list (text * ident)).

Section Tls.
  (* rustls: is the key of a supported type (any_supported_type); is the name a DNS name;
     is it one of the certificate's; does with_single_cert take the pair *)
  Context (key_ok : N -> bool) (dns : text -> bool) (covers : N -> text -> bool) (pair_ok : ident -> bool).

  (* ResolvesServerCertUsingSni::add: the first certificate must be valid for the name;
     names are kept in lower case *)
  Definition sni_add (n : text) (i : ident) (m : list (text * ident)) : res unit (list (text * ident)) :=
    if dns n then
      match fst i with
      | c :: _ => if covers c (low n) then Ok (insert leqb (low n) i m) else Err tt
      | [] => Err tt
      end
    else Err tt.
  (* reverse/http.rs:196-215, the loop over the servers without the listeners (BindModel) *)
  Fixpoint site_loop (single : bool) (one : option ident) (m : list (text * ident)) (ss : list tsite) : res unit (option ident * list (text * ident)) :=
    match ss with
    | [] => Ok (one, m)
    | s :: ss' =>
      if tls_site s then
        do k <- load_keys (t_key s) ;
        do c <- load_certs (t_cert s) ;
        if single then site_loop single (Some (c, k)) m ss'
        else if key_ok k then do m' <- sni_add (t_name s) (c, k) m ; site_loop single one m' ss'
        else Err tt
      else site_loop single one m ss'
    end.
  (* reverse/http.rs:185-260 *)
  Definition tls_start (ss : list tsite) : res unit certs :=
    let single := (length ss =? 1)%nat in
    do (one, m) <- site_loop single None [] ss ;
    match one with
    | Some i => if pair_ok i then Ok (One i) else Err tt
    | None => Ok (ByName m)
    end.
  (* rustls: what a client is shown that names sni, or no server; None: the handshake fails *)
  Definition cert_for (r : certs) (sni : option text) : option ident :=
    match r with
    | One i => Some i
    | ByName m => match sni with Some n => lookup leqb (low n) m | None => None end
    end.
End Tls.
