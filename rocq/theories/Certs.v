(* A server's TLS certificates: crates/bonsaidb-server/src/server.rs:194-200, 236-425 and the
   TLS listener, server/tcp.rs:64-207, with the ACME accounts of server/acme.rs:14-94.
   Certificates and keys are bytes. The stored certificates are the documents of the `_hosted`
   database, one for each name a server has had (hosted.rs:13-58): only the functions below
   write them. Entry::execute is one atomic write or an error without effect (C71_writes,
   C71_failed), a transaction that was acknowledged survives a crash (C19). *)
From Verif Require Import Base.
Local Open Scope nat_scope.

(* TlsCertificate, hosted.rs:16-20, without its domains *)
Record cert := mk_cert { c_chain : list bytes; c_key : bytes }.

(* the calls. OSelf: install_self_signed_certificate, with the pair KeyPair::new_self_signed
   makes (server.rs:238: a chain of one certificate). OInstall: install_certificate. OPem:
   install_pem_certificate, 258-277, with what its arguments parse to. OSecure:
   listen_for_secure_tcp_on, tcp.rs:64-75. OListen: listen_on, server.rs:380-391 *)
Inductive op := OSelf (overwrite : bool) (one key : bytes) | OInstall (c : cert) | OPem (parsed : option cert) | OSecure | OListen.
(* the certificate a call installs *)
Definition offered (o : op) : option cert :=
  match o with
  | OSelf _ one key => Some (mk_cert [one] key)
  | OInstall c => Some c
  | OPem p => p
  | OSecure | OListen => None
  end.

Inductive answer := Ok | Refused | Failed.
(* where a call is: AtCheck 240 | AtStore 288-299 | AtRead 310 (of refresh_certified_key) |
   AtSet 312-326 with the certificate read | AtExists 302 | AtRemove 303 | AtCreate, AtWrite the
   two halves of tokio::fs::write 247-251 | AtListen 382 | Ended *)
Inductive place := AtCheck | AtStore | AtRead | AtSet (c : cert) | AtExists | AtRemove | AtCreate | AtWrite | AtListen | Ended (a : answer).
Record call := mk_call { k_op : op; k_at : place }.

Record state := mk_state {
  s_domain : bytes;                    (* primary_domain *)
  s_docs : list (bytes * cert);        (* the stored certificates by domain *)
  s_served : option cert;              (* primary_tls_key *)
  s_quic : list cert;                  (* the key pairs of the endpoints of listen_on *)
  s_pinned : option bytes;             (* the file pinned-certificate.der *)
  s_calls : list (nat * call)          (* the calls of this process, ended ones included *)
}.
Definition init (domain : bytes) : state := mk_state domain [] None [] None [].

Definition assoc {A} (k : bytes) (l : list (bytes * A)) : option A :=
  match find (fun p => bytes_eqb (fst p) k) l with Some p => Some (snd p) | None => None end.
Definition find_call (i : nat) (l : list (nat * call)) : option call :=
  match find (fun p => Nat.eqb (fst p) i) l with Some p => Some (snd p) | None => None end.
Definition set_call (i : nat) (k : call) (l : list (nat * call)) : list (nat * call) := (i, k) :: filter (fun p => negb (Nat.eqb (fst p) i)) l.

(* tls_certificate and certificate_chain look the domain up, server.rs:329-366 *)
Definition stored (s : state) : option cert := assoc (s_domain s) (s_docs s).
(* update_with / or_insert_with, 288-299: both set the chain and the key *)
Definition store (c : cert) (s : state) : list (bytes * cert) := (s_domain s, c) :: filter (fun p => negb (bytes_eqb (fst p) (s_domain s))) (s_docs s).

Definition start_place (o : op) : place :=
  match o with
  | OSelf _ _ _ => AtCheck
  | OInstall _ | OPem (Some _) => AtStore
  | OPem None => Ended Failed
  | OSecure => AtRead
  | OListen => AtListen
  end.

(* EStart i o       call i begins (its number is new)
   EStep i ok       it goes on to its next access to the database or the file system, which
                    fails if not ok
   ECrash d         the process ends, and the server is opened again with the name d *)
Inductive event := EStart (i : nat) (o : op) | EStep (i : nat) (ok : bool) | ECrash (d : bytes).

Section Server.
(* the private keys rustls::sign::any_ecdsa_type accepts, server.rs:316, and the pairs
   KeyPair::from_parts accepts, 384 *)
Context (ecdsa : bytes -> bool) (pair_ok : cert -> bool).

Definition at_place (i : nat) (k : call) (p : place) (s : state) : state :=
  mk_state (s_domain s) (s_docs s) (s_served s) (s_quic s) (s_pinned s) (set_call i (mk_call (k_op k) p) (s_calls s)).
(* one step of a call *)
Definition step_call (i : nat) (k : call) (ok : bool) (s : state) : state :=
  match k_at k with
  | AtCheck => (* certificate_chain().is_ok() && !overwrite, 240 *)
      let present := ok && match stored s with Some _ => true | None => false end in
      let overwrite := match k_op k with OSelf b _ _ => b | _ => true end in
      at_place i k (if present && negb overwrite then Ended Refused else AtStore) s
  | AtStore =>
      match ok, offered (k_op k) with
      | true, Some c => at_place i k AtRead (mk_state (s_domain s) (store c s) (s_served s) (s_quic s) (s_pinned s) (s_calls s))
      | _, _ => at_place i k (Ended Failed) s
      end
  | AtRead =>
      match ok, stored s with
      | true, Some c => at_place i k (AtSet c) s
      | _, _ => (* tcp.rs:75 drops the error *)
          at_place i k (Ended (match k_op k with OSecure => Ok | _ => Failed end)) s
      end
  | AtSet c =>
      if ecdsa (c_key c)
      then at_place i k (match k_op k with OSecure => Ended Ok | _ => AtExists end)
             (mk_state (s_domain s) (s_docs s) (Some c) (s_quic s) (s_pinned s) (s_calls s))
      else at_place i k (Ended (match k_op k with OSecure => Ok | _ => Failed end)) s
  | AtExists =>
      let next := match k_op k with OSelf _ _ _ => AtCreate | _ => Ended Ok end in
      at_place i k (match s_pinned s with Some _ => AtRemove | None => next end) s
  | AtRemove =>
      match ok, s_pinned s with
      | true, Some _ =>
          let next := match k_op k with OSelf _ _ _ => AtCreate | _ => Ended Ok end in
          at_place i k next (mk_state (s_domain s) (s_docs s) (s_served s) (s_quic s) None (s_calls s))
      | _, _ => (* remove_file of a file that is not there is an error *) at_place i k (Ended Failed) s
      end
  | AtCreate =>
      if ok then at_place i k AtWrite (mk_state (s_domain s) (s_docs s) (s_served s) (s_quic s) (Some []) (s_calls s))
      else at_place i k (Ended Failed) s
  | AtWrite =>
      match ok, k_op k with
      | true, OSelf _ one _ => at_place i k (Ended Ok) (mk_state (s_domain s) (s_docs s) (s_served s) (s_quic s) (Some one) (s_calls s))
      | _, _ => at_place i k (Ended Failed) s
      end
  | AtListen =>
      match ok, stored s with
      | true, Some c =>
          if pair_ok c
          then at_place i k (Ended Ok) (mk_state (s_domain s) (s_docs s) (s_served s) (c :: s_quic s) (s_pinned s) (s_calls s))
          else at_place i k (Ended Failed) s
      | _, _ => at_place i k (Ended Failed) s
      end
  | Ended _ => s
  end.

Definition step (e : event) (s : state) : option state :=
  match e with
  | EStart i o =>
      match find_call i (s_calls s) with
      | Some _ => None
      | None => Some (at_place i (mk_call o AtCheck) (start_place o) s)
      end
  | EStep i ok =>
      match find_call i (s_calls s) with
      | None => None
      | Some k => match k_at k with Ended _ => None | _ => Some (step_call i k ok s) end
      end
  | ECrash d => Some (mk_state d (s_docs s) None [] (s_pinned s) [])
  end.
Fixpoint run (l : list event) (s : state) : option state :=
  match l with [] => Some s | e :: r => match step e s with Some s' => run r s' | None => None end end.
End Server.

Definition answer_of (i : nat) (s : state) : option answer :=
  match find_call i (s_calls s) with Some (mk_call _ (Ended a)) => Some a | _ => None end.
Definition ended (k : call) : bool := match k_at k with Ended _ => true | _ => false end.

(* acme-tls/1, async_acme::acme::ACME_TLS_ALPN_NAME *)
Definition acme_alpn : bytes := [97;99;109;101;45;116;108;115;47;49]%N.
Definition is_acme (offered : option (list bytes)) : bool :=
  match offered with Some l => existsb (bytes_eqb acme_alpn) l | None => false end.
(* ResolvesServerCert::resolve, tcp.rs:174-207; sni: client_hello.server_name *)
Definition resolve (alpn_keys : list (bytes * cert)) (s : state) (offered : option (list bytes)) (sni : option bytes) : option cert :=
  if is_acme offered then match sni with Some n => assoc n alpn_keys | None => None end
  else s_served s.

(* the protocol of an accepted connection, tcp.rs:112-123; [] panics. negotiated:
   alpn_protocol() *)
Definition protocol (available : list bytes) (negotiated : option bytes) : outcome bytes unit :=
  match (match negotiated with Some n => find (bytes_eqb n) available | None => None end) with
  | Some p => Done p
  | None => match available with [] => Panic | p :: _ => Done p end
  end.
(* handle_tcp_connection, tcp.rs:140-171: whether the service gets the connection *)
Definition given_to_service (p : bytes) : bool := negb (bytes_eqb p acme_alpn).

(* the ACME accounts, acme.rs:14-81. join(";") of the contacts is the unique key *)
Fixpoint join (l : list bytes) : bytes :=
  match l with [] => [] | [x] => x | x :: r => x ++ 59%N :: join r end.
Record account := mk_account { a_contacts : list bytes; a_data : bytes }.
Definition find_account (contacts : list bytes) (l : list account) : option account :=
  find (fun a => bytes_eqb (join (a_contacts a)) (join contacts)) l.
Definition read_account (contacts : list bytes) (l : list account) : option bytes :=
  match find_account contacts l with Some a => Some (a_data a) | None => None end.
Fixpoint replace_data (contacts : list bytes) (d : bytes) (l : list account) : list account :=
  match l with
  | [] => []
  | a :: r => if bytes_eqb (join (a_contacts a)) (join contacts) then mk_account (a_contacts a) d :: r else a :: replace_data contacts d r
  end.
Definition write_account (contacts : list bytes) (d : bytes) (l : list account) : list account :=
  match find_account contacts l with
  | Some _ => replace_data contacts d l
  | None => l ++ [mk_account contacts d]
  end.
