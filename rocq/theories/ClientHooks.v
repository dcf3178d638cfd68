(* Model of the Backend hooks of a server and of the set of connected clients.

   /repo/crates/bonsaidb-server/src/server.rs:429-509 (connected_clients, broadcast,
   initialize_client, disconnect_client); server/connected_client.rs:36-56, 79-102, 136-140,
   265-331 (logged_in_as, log_out, all_sessions, OwnedClient); dispatch.rs:188-258
   (Authenticate, AssumeIdentity, LogOutSession); backend.rs:40-107 (the hooks).

   Connections are numbered by the order the caller likes: the u32 of server.rs:457 is unique
   among the registered clients (the Vacant test of server.rs:459) and a connection is
   removed once, so the number here never changes its meaning.  Session ids are the storage's
   (local storage.rs:818, 852: never reused).  A request of a client is a job of the shared
   workers; what other commands do is not modelled.  A hook's own errors are only logged and a
   hook is recorded when the server calls it. *)
From Coq Require Import List NArith Bool.
Import ListNotations.
Open Scope N_scope.

(* backend.rs:42-107: a call of client_connected, client_authenticated, client_session_ended
   (with the session's id, None for the default session, and `disconnecting`),
   client_disconnected *)
Inductive hook :=
| HConnected (c : N)
| HAuthenticated (c i : N)
| HEnded (c : N) (s : option N) (disconnecting : bool)
| HDisconnected (c : N).

Definition client_of (h : hook) : N :=
  match h with HConnected c => c | HAuthenticated c _ => c | HEnded c _ _ => c | HDisconnected c => c end.

Inductive phase :=
| Connecting      (* registered, client_connected running: server.rs:455-475 *)
| Serving         (* accepted, its OwnedClient is alive *)
| Dropped         (* OwnedClient dropped, disconnect_client spawned: connected_client.rs:316-321 *)
| Ending          (* removed from the map, the loop of server.rs:495-504 *)
| Gone.           (* client_disconnected called, server.rs:506 *)

(* connected_client.rs:36-49 ConnectedClientData: its sessions, and what is under way for it *)
Record conn := mkConn {
  ph : phase;
  sessions : list (option N);  (* the keys of `sessions` *)
  jobs : nat;                  (* requests accepted and not begun *)
  authing : list N;            (* logged_in_as done, client_authenticated not yet called *)
  outing : list N;             (* log_out done, client_session_ended not yet called *)
  left : list (option N);      (* of all_sessions, not yet told to client_session_ended *)
  outbox : list N              (* response_sender: what broadcast sent *)
}.

Record state := mkState {
  conns : N -> option conn;
  seen : list N;               (* connections ever registered *)
  used : list N;               (* session ids ever made *)
  log : list hook              (* hooks called, oldest first *)
}.
Definition init : state := mkState (fun _ => None) [] [] [].

(* in CustomServerData.clients: server.rs:455-463 inserts, server.rs:488-491 removes *)
Definition registered (k : conn) : bool :=
  match ph k with Connecting | Serving | Dropped => true | Ending | Gone => false end.
(* connected_client.rs:72-77 connected() *)
Definition connected (st : state) (c : N) : bool :=
  match conns st c with Some k => registered k | None => false end.
(* server.rs:429-434 connected_clients *)
Definition connected_clients (st : state) : list N := filter (connected st) (seen st).

Definition set_conn (st : state) (c : N) (k : conn) : state :=
  mkState (fun d => if d =? c then Some k else conns st d) (seen st) (used st) (log st).
Definition call (h : hook) (st : state) : state :=
  mkState (conns st) (seen st) (used st) (log st ++ [h]).

Definition osid_eqb (a b : option N) : bool :=
  match a, b with Some x, Some y => x =? y | None, None => true | _, _ => false end.
Fixpoint drop_one {A} (eqb : A -> A -> bool) (a : A) (l : list A) : list A :=
  match l with [] => [] | x :: r => if eqb a x then r else x :: drop_one eqb a r end.
Definition has {A} (eqb : A -> A -> bool) (a : A) (l : list A) : bool := existsb (eqb a) l.

Inductive event :=
| EConnect (c : N)              (* initialize_client registers the client and calls the hook *)
| EAnswer (c : N) (ok : bool)   (* client_connected returned Accept, or Reject or an error *)
| EClose (c : N)                (* the stream ended: the OwnedClient is dropped *)
| EAccept (c : N)               (* a request is handed to the workers *)
| ELogin (c i : N)              (* Authenticate/AssumeIdentity granted session i, logged_in_as *)
| EOther (c : N)                (* another request, or a refused one, was handled *)
| EAuth (c i : N)               (* client_authenticated is called *)
| ELogout (c i : N)             (* LogOutSession: log_out *)
| EEnd (c i : N)                (* client_session_ended(.., false) is called *)
| ERemove (c : N)               (* disconnect_client: remove, set_disconnected, all_sessions *)
| EEndOne (c : N) (s : option N)  (* client_session_ended(.., true) is called *)
| EGone (c : N)                 (* client_disconnected is called *)
| EBroadcast (m : N).           (* CustomServer::broadcast *)

(* `allowed`: the default session may ServerAction::Connect (server.rs:448-453).  None: the
   event cannot happen in this state. *)
Definition step (allowed : bool) (st : state) (ev : event) : option state :=
  match ev with
  | EConnect c =>
      if negb allowed then Some st else
      match conns st c with
      | Some _ => None
      | None =>
          let st' := set_conn st c (mkConn Connecting [None] 0 [] [] [] []) in
          Some (call (HConnected c) (mkState (conns st') (seen st ++ [c]) (used st) (log st)))
      end
  | EAnswer c ok =>
      match conns st c with
      | Some k =>
          match ph k with
          | Connecting =>
              Some (set_conn st c (mkConn (if ok then Serving else Dropped) (sessions k) (jobs k)
                                     (authing k) (outing k) (left k) (outbox k)))
          | _ => None
          end
      | None => None
      end
  | EClose c =>
      match conns st c with
      | Some k =>
          match ph k with
          | Serving =>
              Some (set_conn st c (mkConn Dropped (sessions k) (jobs k)
                                     (authing k) (outing k) (left k) (outbox k)))
          | _ => None
          end
      | None => None
      end
  | EAccept c =>
      match conns st c with
      | Some k =>
          match ph k with
          | Serving =>
              Some (set_conn st c (mkConn Serving (sessions k) (S (jobs k))
                                     (authing k) (outing k) (left k) (outbox k)))
          | _ => None
          end
      | None => None
      end
  | ELogin c i =>
      (* dispatch.rs:194-200, 219-223; connected_client.rs:83-92 *)
      match conns st c with
      | Some k =>
          match jobs k with
          | O => None
          | S n =>
              if has N.eqb i (used st) then None else
              let st' := set_conn st c (mkConn (ph k) (Some i :: sessions k) n
                                          (i :: authing k) (outing k) (left k) (outbox k)) in
              Some (mkState (conns st') (seen st') (i :: used st) (log st))
          end
      | None => None
      end
  | EOther c =>
      match conns st c with
      | Some k =>
          match jobs k with
          | O => None
          | S n => Some (set_conn st c (mkConn (ph k) (sessions k) n
                                          (authing k) (outing k) (left k) (outbox k)))
          end
      | None => None
      end
  | EAuth c i =>
      (* dispatch.rs:202-209, 225-232 *)
      match conns st c with
      | Some k =>
          if has N.eqb i (authing k) then
            Some (call (HAuthenticated c i)
                    (set_conn st c (mkConn (ph k) (sessions k) (jobs k)
                                      (drop_one N.eqb i (authing k)) (outing k) (left k) (outbox k))))
          else None
      | None => None
      end
  | ELogout c i =>
      (* dispatch.rs:245; connected_client.rs:94-97: nothing more happens when the client has
         no such session *)
      match conns st c with
      | Some k =>
          match jobs k with
          | O => None
          | S n =>
              if has osid_eqb (Some i) (sessions k) then
                Some (set_conn st c (mkConn (ph k) (drop_one osid_eqb (Some i) (sessions k)) n
                                       (authing k) (i :: outing k) (left k) (outbox k)))
              else
                Some (set_conn st c (mkConn (ph k) (sessions k) n
                                       (authing k) (outing k) (left k) (outbox k)))
          end
      | None => None
      end
  | EEnd c i =>
      (* dispatch.rs:246-253 *)
      match conns st c with
      | Some k =>
          if has N.eqb i (outing k) then
            Some (call (HEnded c (Some i) false)
                    (set_conn st c (mkConn (ph k) (sessions k) (jobs k)
                                      (authing k) (drop_one N.eqb i (outing k)) (left k) (outbox k))))
          else None
      | None => None
      end
  | ERemove c =>
      (* server.rs:487-495: removal, set_disconnected and the copy of the sessions, taken as
         one step *)
      match conns st c with
      | Some k =>
          match ph k with
          | Dropped =>
              Some (set_conn st c (mkConn Ending (sessions k) (jobs k)
                                     (authing k) (outing k) (sessions k) (outbox k)))
          | _ => None
          end
      | None => None
      end
  | EEndOne c s =>
      (* server.rs:495-504, in the order of the hash map *)
      match conns st c with
      | Some k =>
          match ph k with
          | Ending =>
              if has osid_eqb s (left k) then
                Some (call (HEnded c s true)
                        (set_conn st c (mkConn Ending (sessions k) (jobs k)
                                          (authing k) (outing k) (drop_one osid_eqb s (left k)) (outbox k))))
              else None
          | _ => None
          end
      | None => None
      end
  | EGone c =>
      (* server.rs:506-508 *)
      match conns st c with
      | Some k =>
          match ph k, left k with
          | Ending, [] =>
              Some (call (HDisconnected c)
                      (set_conn st c (mkConn Gone (sessions k) (jobs k)
                                        (authing k) (outing k) [] (outbox k))))
          | _, _ => None
          end
      | None => None
      end
  | EBroadcast m =>
      (* server.rs:436-443, connected_client.rs:100-112: to the global session of every
         registered client; a send error is ignored *)
      Some (mkState
              (fun d => match conns st d with
                        | Some k =>
                            if registered k
                            then Some (mkConn (ph k) (sessions k) (jobs k) (authing k) (outing k)
                                         (left k) (outbox k ++ [m]))
                            else Some k
                        | None => None
                        end)
              (seen st) (used st) (log st))
  end.

Fixpoint run (allowed : bool) (es : list event) (st : state) : option state :=
  match es with
  | [] => Some st
  | e :: r => match step allowed st e with Some st' => run allowed r st' | None => None end
  end.
