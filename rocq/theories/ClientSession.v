(* The session of a client handle: crates/bonsaidb-client/src/client.rs:227-243 (AsyncClient and
   its Drop), 637-655 (session_is_current, session), 740-772 (authenticate, assume_identity;
   client/sync.rs:206-236 the same for a blocking client), 970-974 (ClientSession), and the
   connection counter of client/quic_worker.rs:37-42.
   A clone of a client, or a database opened with it, shares the Arc of the session.
   Simplified: the counter does not wrap (it is a u32); dropping takes two steps, the test of
   Arc::strong_count and the release of the field. *)
From Verif Require Import Base.
Local Open Scope N_scope.

(* an Arc<Session> with the connection_id next to it. a_made: the connection the server gave
   the session on (not in the code) *)
Record arc := mk_arc { a_sid : option N; a_tag : N; a_made : N }.
Inductive phase := Live | Dropping | Gone.
Record state := mk_state {
  counter : N;                       (* connection_counter *)
  connected : bool;
  arcs : list arc;
  handles : list (nat * phase);      (* each AsyncClient: its arc *)
  answers : list (option (N * N));   (* sessions answered by the server, and on which connection *)
  logouts : list nat }.              (* LogOutSession sent, for which arc *)
(* AsyncClient::new: the session is the default one *)
Definition new_client : state := mk_state 0 false [mk_arc None 0 0] [(0%nat, Live)] [] [].

Definition arc_at (s : state) (a : nat) : arc := nth a (arcs s) (mk_arc None 0 0).
(* session_is_current, client.rs:637-640 *)
Definition current (s : state) (a : nat) : bool :=
  match a_sid (arc_at s a) with None => true | Some _ => counter s =? a_tag (arc_at s a) end.
(* HasSession::session, client.rs:651-655: the id of the session, if it is reported *)
Definition session (s : state) (i : nat) : option (option N) :=
  match nth_error (handles s) i with
  | Some (a, Live) => if current s a then Some (a_sid (arc_at s a)) else None
  | _ => None
  end.
Definition held (a : nat) (h : nat * phase) : bool := Nat.eqb (fst h) a && match snd h with Gone => false | _ => true end.
(* Arc::strong_count *)
Definition strong_count (s : state) (a : nat) : nat := length (filter (held a) (handles s)).
Fixpoint put {A} (i : nat) (x : A) (l : list A) : list A :=
  match l, i with
  | [], _ => []
  | _ :: r, O => x :: r
  | y :: r, Datatypes.S j => y :: put j x r
  end.
Definition with_handles (s : state) (h : list (nat * phase)) (l : list nat) : state :=
  mk_state (counter s) (connected s) (arcs s) h (answers s) l.

Inductive event :=
| Lost                   (* the connection ends *)
| Request                (* a request is sent: connects if need be, quic_worker.rs:37-42 *)
| Answer (sid : N)       (* the server answers Authenticate or AssumeIdentity *)
| Finish (n : nat)       (* authenticate returns: the counter is read, client.rs:747-754 *)
| Clone (i : nat)
| DropStart (i : nat)    (* Drop::drop, client.rs:234-242 *)
| DropEnd (i : nat).     (* the fields are dropped *)
Definition step (s : state) (e : event) : state :=
  match e with
  | Lost => mk_state (counter s) false (arcs s) (handles s) (answers s) (logouts s)
  | Request => if connected s then s else mk_state (counter s + 1) true (arcs s) (handles s) (answers s) (logouts s)
  | Answer sid => if connected s then mk_state (counter s) true (arcs s) (handles s) (answers s ++ [Some (sid, counter s)]) (logouts s) else s
  | Finish n =>
      match nth_error (answers s) n with
      | Some (Some (sid, made)) =>
          mk_state (counter s) (connected s) (arcs s ++ [mk_arc (Some sid) (counter s) made]) (handles s ++ [(length (arcs s), Live)])
            (put n None (answers s)) (logouts s)
      | _ => s
      end
  | Clone i => match nth_error (handles s) i with Some (a, Live) => with_handles s (handles s ++ [(a, Live)]) (logouts s) | _ => s end
  | DropStart i =>
      match nth_error (handles s) i with
      | Some (a, Live) =>
          with_handles s (put i (a, Dropping) (handles s))
            (if current s a && Nat.eqb (strong_count s a) 1
             then match a_sid (arc_at s a) with Some _ => logouts s ++ [a] | None => logouts s end
             else logouts s)
      | _ => s
      end
  | DropEnd i => match nth_error (handles s) i with Some (a, Dropping) => with_handles s (put i (a, Gone) (handles s)) (logouts s) | _ => s end
  end.
Definition run (s : state) (l : list event) : state := fold_left step l s.
