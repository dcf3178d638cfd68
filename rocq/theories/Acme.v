(* The task that keeps a server's certificate renewed through ACME:
   crates/bonsaidb-server/src/server/acme.rs:84-131, started by every call of
   listen_for_secure_tcp_on, server/tcp.rs:64-84.
   Simplified: async_acme is a dependency and not modelled. [left k t] stands for what
   rustls_helper::duration_until_renewal_attempt(k, 0) answers at time t, and an order for
   its observable steps: challenge keys it hands over, the certificate it delivers, its
   error. Times are seconds. Installing a certificate (C83) sets the served one and ends;
   the calls of C83 that change the served certificate are [EServe]. *)
From Verif Require Import Base.
Local Open Scope Z_scope.

(* Duration::from_secs(24 * 60 * 60 * 14), acme.rs:101 *)
Definition two_weeks : Z := 24 * 60 * 60 * 14.
(* Duration::from_secs(60 * 60), acme.rs:103 *)
Definition one_hour : Z := 60 * 60.

Section Task.
Context {K : Type} (left : option K -> Z -> Z).

(* where a task is. Top: at the head of the loop since that time, acme.rs:97. Asleep: in
   tokio::time::sleep, with the key cloned at acme.rs:99. Ordering: in
   async_acme::rustls_helper::order, 111-127. Over: the [?] of 127 has returned *)
Inductive place := Top (since : Z) | Asleep (k : option K) (wake : Z) | Ordering (since : Z) | Over.
Record order := mk_order { o_task : nat; o_at : Z; o_for : option K }.
Record state := mk_state {
  now : Z;
  served : option K;               (* primary_tls_key *)
  keys : list (bytes * K);         (* alpn_keys *)
  tasks : list (nat * place);
  orders : list order              (* the orders begun, newest first *)
}.
Definition place_of (i : nat) (s : state) : option place :=
  match find (fun p => Nat.eqb (fst p) i) (tasks s) with Some p => Some (snd p) | None => None end.
Definition set_place (i : nat) (p : place) (l : list (nat * place)) : list (nat * place) :=
  map (fun q => if Nat.eqb (fst q) i then (i, p) else q) l.
Definition at_place (i : nat) (p : place) (s : state) : state :=
  mk_state (now s) (served s) (keys s) (set_place i p (tasks s)) (orders s).

Inductive event :=
| EListen (i : nat)                      (* listen_for_secure_tcp_on: a new task *)
| EPass (d : Z)                          (* time passes *)
| EServe (k : K)                         (* another call sets primary_tls_key *)
| EStep (i : nat)                        (* the task goes on *)
| EChallenge (i : nat) (name : bytes) (k : K)   (* the closure of the order, acme.rs:112-116 *)
| EIssued (i : nat) (k : K)              (* the order ends well: write_certificate, 84-93, has installed k *)
| EFail (i : nat) (k : option K).        (* it fails, perhaps after k was served *)

(* the condition of the while loop, acme.rs:100-104, for the cloned key: sleep, or order *)
Definition look (i : nat) (k : option K) (s : state) : state :=
  if two_weeks <? left k (now s) then at_place i (Asleep k (now s + one_hour)) s
  else mk_state (now s) (served s) (keys s) (set_place i (Ordering (now s)) (tasks s)) (mk_order i (now s) k :: orders s).

Definition step (e : event) (s : state) : option state :=
  match e with
  | EListen i =>
      match place_of i s with
      | Some _ => None
      | None => Some (mk_state (now s) (served s) (keys s) ((i, Top (now s)) :: tasks s) (orders s))
      end
  | EPass d => if d <? 0 then None else Some (mk_state (now s + d) (served s) (keys s) (tasks s) (orders s))
  | EServe k => Some (mk_state (now s) (Some k) (keys s) (tasks s) (orders s))
  | EStep i =>
      match place_of i s with
      | Some (Top _) => Some (look i (served s) s)
      | Some (Asleep k wake) => if wake <=? now s then Some (look i k s) else None
      | _ => None
      end
  | EChallenge i name k =>
      match place_of i s with
      | Some (Ordering _) =>
          Some (mk_state (now s) (served s) ((name, k) :: filter (fun p => negb (bytes_eqb (fst p) name)) (keys s)) (tasks s) (orders s))
      | _ => None
      end
  | EIssued i k =>
      match place_of i s with
      | Some (Ordering _) => Some (mk_state (now s) (Some k) (keys s) (set_place i (Top (now s)) (tasks s)) (orders s))
      | _ => None
      end
  | EFail i o =>
      match place_of i s with
      | Some (Ordering _) =>
          Some (mk_state (now s) (match o with Some k => Some k | None => served s end) (keys s) (set_place i Over (tasks s)) (orders s))
      | _ => None
      end
  end.
Fixpoint run (l : list event) (s : state) : option state :=
  match l with [] => Some s | e :: r => match step e s with Some s' => run r s' | None => None end end.
(* a server that has just started *)
Definition init (t : Z) : state := mk_state t None [] [] [].
End Task.
Arguments place K : clear implicits.
Arguments order K : clear implicits.
Arguments state K : clear implicits.
Arguments event K : clear implicits.
