(* Model of the sessions and subscribers of a server's connections.

   /repo/crates/bonsaidb-server/src/server/connected_client.rs:36-262;
   /repo/crates/bonsaidb-server/src/server.rs:129-157 (workers), 445-509 (initialize_client,
   disconnect_client), 643-662 (handle_request_through_worker);
   /repo/crates/bonsaidb-server/src/dispatch.rs:185-262, 535-638;
   /repo/crates/bonsaidb-local/src/storage.rs:1643-1678 (assume_session);
   /repo/crates/bonsaidb-local/src/database/pubsub.rs, storage/pubsub.rs.

   Connections, session ids, subscriber ids, databases and topics are numbers.  Requests are
   accepted and later handled in any order; what a login grants is decided by the storage (C57
   to C62) and arbitrary here. *)
From Coq Require Import List NArith Bool.
Import ListNotations.
Open Scope N_scope.

Inductive action := ACreate (db : N) | ASubscribe (db t : N) | AUnsubscribe (db t : N) | APublish (db t : N).
(* core Permissions: what is allowed.  Permissions::merged allows what one of them allows. *)
Definition perms := action -> bool.
Definition merged (p q : perms) : perms := fun a => p a || q a.

(* bonsaidb-local Subscriber: its id, the database handle (with the permissions of the
   session that made it) and the topics its relay subscriber holds *)
Record sub := mkSub { s_id : N; s_db : N; s_perms : perms; s_topics : list N }.
(* connected_client.rs:51-55 ClientSession *)
Record csession := mkCS { c_perms : perms; c_subs : list sub }.
Definition key := (N * option N)%type.     (* connection, Option<SessionId> *)

Definition opt_eqb (a b : option N) : bool :=
  match a, b with Some x, Some y => x =? y | None, None => true | _, _ => false end.
Definition key_eqb (a b : key) : bool := (fst a =? fst b) && opt_eqb (snd a) (snd b).

Inductive command :=
| Login                                 (* Authenticate, AssumeIdentity *)
| LogOut (i : N)
| CreateSubscriber (db : N)
| SubscribeTo (id t : N)
| UnsubscribeFrom (id t : N)
| Unregister (id : N)
| Publish (db t payload : N)
| Other (a : action).                   (* any other request, with the action it needs *)

(* ClientRequest, server.rs: the session was looked up when the request was accepted *)
Record job := mkJob { j_conn : N; j_sid : option N; j_perms : perms; j_cmd : command }.

Inductive reply := Ok | Err | Session (i : N) | Subscriber (id : N).

(* A message forwarded to a client: connection, session id, subscriber, topic, payload. *)
Record message := mkMsg { m_conn : N; m_sid : option N; m_sub : N; m_topic : N; m_payload : N }.

(* What happened, newest first (for the specification). *)
Inductive entry :=
| EUp (c : N) | EDown (c : N)
| ELogin (c i : N) (p : perms) | ELogout (c i : N)
| ESub (c : N) (s : option N) (id db : N) (p : perms)
| EDrop (c : N) (s : option N) (id : N)
| ETopic (c : N) (s : option N) (id db t : N)
| EUntopic (c : N) (s : option N) (id db t : N).

Record state := mkSt {
  sessions : list (key * csession);  (* ConnectedClientData.sessions of all connections; the
                                        entry (c, None) exists while c is connected *)
  table : list (N * perms);          (* the storage's AuthenticatedSessions *)
  last_sid : N;
  last_sub : N;
  pending : list job;
  sent : list message;
  log : list entry
}.
Definition init : state := mkSt [] [] 0 0 [] [] [].

Definition find_session (k : key) (l : list (key * csession)) : option csession :=
  option_map snd (find (fun e => key_eqb (fst e) k) l).
Definition remove_session (k : key) (l : list (key * csession)) : list (key * csession) :=
  filter (fun e => negb (key_eqb (fst e) k)) l.
(* HashMap::get_mut *)
Definition on_session (k : key) (f : csession -> csession) (l : list (key * csession)) :=
  map (fun e => if key_eqb (fst e) k then (fst e, f (snd e)) else e) l.
Definition find_sub (id : N) (x : csession) : option sub := find (fun b => s_id b =? id) (c_subs x).
Definition lookup (i : N) (t : list (N * perms)) : option perms :=
  option_map snd (find (fun e => fst e =? i) t).
Definition mem (t : N) (l : list N) : bool := existsb (N.eqb t) l.

(* storage.rs:1643-1678; None: InvalidCredentials *)
Definition assume (t : list (N * perms)) (sid : option N) (p : perms) : option perms :=
  match sid with
  | None => Some p
  | Some i => match lookup i t with Some q => Some (merged p q) | None => None end
  end.

(* Relay::publish_raw and connected_client.rs:160-182 forward_notifications_for: one message per
   subscriber holding the topic, to the connection that registered it *)
Definition deliveries (db t payload : N) (l : list (key * csession)) : list message :=
  flat_map (fun e => map (fun b => mkMsg (fst (fst e)) (snd (fst e)) (s_id b) t payload)
                       (filter (fun b => (s_db b =? db) && mem t (s_topics b)) (c_subs (snd e)))) l.

Definition set_topics (id : N) (f : list N -> list N) (x : csession) : csession :=
  mkCS (c_perms x) (map (fun b => if s_id b =? id then mkSub (s_id b) (s_db b) (s_perms b) (f (s_topics b)) else b) (c_subs x)).

(* The handlers.  c: the connection, s and p: id and permissions of the effective session,
   grant: what a login grants, if it succeeds. *)
Definition handle (st : state) (c : N) (s : option N) (p : perms) (cmd : command) (grant : option perms)
  : state * reply :=
  let '(mkSt se tb ls lb pe se_t lg) := st in
  match cmd with
  (* dispatch.rs:188-210, 213-235; connected_client.rs:79-88 logged_in_as.  On a connection that
     is gone meanwhile nobody sees the entry. *)
  | Login =>
      match grant with
      | None => (st, Err)
      | Some q =>
          let i := ls + 1 in
          match find_session (c, None) se with
          | Some _ => (mkSt (((c, Some i), mkCS q []) :: remove_session (c, Some i) se) ((i, q) :: tb) i lb pe se_t (ELogin c i q :: lg), Session i)
          | None => (mkSt se ((i, q) :: tb) i lb pe se_t lg, Session i)
          end
      end
  (* dispatch.rs:238-258; connected_client.rs:90-93 log_out: dropping the session drops its subscribers *)
  | LogOut i => (mkSt (remove_session (c, Some i) se) tb ls lb pe se_t (ELogout c i :: lg), Ok)
  (* dispatch.rs:535-554, database/pubsub.rs:14-23, connected_client.rs:127-151 *)
  | CreateSubscriber db =>
      if p (ACreate db) then
        let id := lb + 1 in
        match find_session (c, s) se with
        | Some _ => (mkSt (on_session (c, s) (fun x => mkCS (c_perms x) (mkSub id db p [] :: c_subs x)) se) tb ls id pe se_t
                       (ESub c s id db p :: lg), Subscriber id)
        | None => (mkSt se tb ls id pe se_t lg, Subscriber id)   (* "TODO return error": the subscriber is dropped *)
        end
      else (st, Err)
  (* dispatch.rs:591-605, connected_client.rs:184-205, database/pubsub.rs:82-91 *)
  | SubscribeTo id t =>
      match find_session (c, s) se with
      | Some x => match find_sub id x with
                  | Some b => if s_perms b (ASubscribe (s_db b) t)
                              then (mkSt (on_session (c, s) (set_topics id (fun l => if mem t l then l else t :: l)) se) tb ls lb pe se_t
                                      (ETopic c s id (s_db b) t :: lg), Ok)
                              else (st, Err)
                  | None => (st, Err)
                  end
      | None => (st, Err)
      end
  (* dispatch.rs:607-622, connected_client.rs:207-228, database/pubsub.rs:93-102 *)
  | UnsubscribeFrom id t =>
      match find_session (c, s) se with
      | Some x => match find_sub id x with
                  | Some b => if s_perms b (AUnsubscribe (s_db b) t)
                              then (mkSt (on_session (c, s) (set_topics id (filter (fun u => negb (u =? t)))) se) tb ls lb pe se_t
                                      (EUntopic c s id (s_db b) t :: lg), Ok)
                              else (st, Err)
                  | None => (st, Err)
                  end
      | None => (st, Err)
      end
  (* dispatch.rs:624-638, connected_client.rs:230-250 *)
  | Unregister id =>
      match find_session (c, s) se with
      | Some x => match find_sub id x with
                  | Some _ => (mkSt (on_session (c, s) (fun x => mkCS (c_perms x) (filter (fun b => negb (s_id b =? id)) (c_subs x))) se) tb ls lb pe se_t
                                 (EDrop c s id :: lg), Ok)
                  | None => (st, Err)
                  end
      | None => (st, Err)
      end
  (* dispatch.rs:557-568, database/pubsub.rs:25-35 *)
  | Publish db t payload =>
      if p (APublish db t) then (mkSt se tb ls lb pe (se_t ++ deliveries db t payload se) lg, Ok) else (st, Err)
  | Other a => (st, if p a then Ok else Err)
  end.

Fixpoint remove_nth {A} (n : nat) (l : list A) : list A :=
  match n, l with
  | O, _ :: r => r
  | S n', x :: r => x :: remove_nth n' r
  | _, [] => []
  end.

Inductive event :=
| Connect (c : N)
| Disconnect (c : N)
| Request (c : N) (s : option N) (cmd : command)   (* a request is read and accepted *)
| Handle (k : nat) (grant : option perms)          (* a worker handles the k-th accepted request *)
| Forget (i : N).                                  (* the storage forgets a session *)

(* dflt: the permissions of the server's default session.  The reply is what the handled
   request is answered with. *)
Definition step (dflt : perms) (st : state) (ev : event) : state * option reply :=
  match ev with
  (* server.rs:445-485: an unused client id is taken *)
  | Connect c =>
      match find_session (c, None) (sessions st) with
      | Some _ => (st, None)
      | None => (mkSt (((c, None), mkCS dflt []) :: sessions st) (table st) (last_sid st) (last_sub st) (pending st) (sent st)
                   (EUp c :: log st), None)
      end
  (* server.rs:487-509.  The subscribers' forwarding tasks may outlive the connection until their
     next message; nothing reaches the client any more. *)
  | Disconnect c =>
      (mkSt (filter (fun e => negb (fst (fst e) =? c)) (sessions st)) (table st) (last_sid st) (last_sub st) (pending st) (sent st)
         (EDown c :: log st), None)
  (* server.rs:652-662 *)
  | Request c s cmd =>
      let j := match find_session (c, s) (sessions st) with
               | Some x => mkJob c s (c_perms x) cmd
               | None => mkJob c None dflt cmd
               end in
      match find_session (c, None) (sessions st) with
      | Some _ => (mkSt (sessions st) (table st) (last_sid st) (last_sub st) (pending st ++ [j]) (sent st) (log st), None)
      | None => (st, None)
      end
  (* server.rs:132-156 *)
  | Handle k grant =>
      match nth_error (pending st) k with
      | None => (st, None)
      | Some j =>
          let st' := mkSt (sessions st) (table st) (last_sid st) (last_sub st) (remove_nth k (pending st)) (sent st) (log st) in
          match assume (table st) (j_sid j) (j_perms j) with
          | None => (st', Some Err)
          | Some p => let (st2, r) := handle st' (j_conn j) (j_sid j) p (j_cmd j) grant in (st2, Some r)
          end
      end
  (* storage.rs: the session table loses an entry (token login finished, last handle dropped) *)
  | Forget i =>
      (mkSt (sessions st) (filter (fun e => negb (fst e =? i)) (table st)) (last_sid st) (last_sub st) (pending st) (sent st) (log st), None)
  end.

Fixpoint run (dflt : perms) (st : state) (h : list event) : state :=
  match h with [] => st | ev :: r => run dflt (fst (step dflt st ev)) r end.
